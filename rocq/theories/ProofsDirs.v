(** Simulation: jobs that make their directories first behave as the jobs of ModelJobs.v. *)
From Verif Require Import SpecDirs ProofsText ProofsResults ProofsPaths ProofsJobs.
From Coq Require Import Lia ZifyBool ZifyNat.
Open Scope Z_scope.
Open Scope list_scope.

(** ** Paths *)
Lemma last_slash (p : text) : ~ In slash p \/ exists a b, p = a ++ slash :: b /\ ~ In slash b.
Proof.
  induction p as [|c p [N|(a & b & -> & N)]].
  - left. intros [].
  - destruct (Ascii.eqb_spec c slash) as [->|Nc]; [right; exists [], p; auto|left; intros [X|X]; [congruence|auto]].
  - right. exists (c :: a), b. auto.
Qed.
Lemma drop_slashes_spec r : exists n, r = repeat slash n ++ drop_slashes r /\ match drop_slashes r with c :: _ => c <> slash | [] => True end.
Proof.
  induction r as [|c r (n & E & H)]; [exists 0%nat; split; [reflexivity|exact I]|]. cbn [drop_slashes]. change "/"%char with slash. destruct (Ascii.eqb_spec c slash) as [->|N].
  - exists (S n). split; [cbn [repeat app]; f_equal; exact E|exact H].
  - exists 0%nat. split; [reflexivity|exact N].
Qed.
Lemma rev_repeat {A} (a : A) n : rev (repeat a n) = repeat a n.
Proof. induction n as [|n IH]; [reflexivity|]. cbn [repeat rev]. rewrite IH. clear. induction n as [|n IH]; [reflexivity|]. cbn [repeat app]. f_equal. exact IH. Qed.
Lemma repeat_snoc {A} (a : A) n : repeat a (S n) = repeat a n ++ [a].
Proof. induction n as [|n IH]; [reflexivity|]. cbn [repeat app] in *. f_equal. exact IH. Qed.
Lemma slashes_top n : top (repeat slash n) = true.
Proof. unfold top. replace (forallb _ _) with true; [reflexivity|]. symmetry. apply forallb_forall. intros x X. apply repeat_spec in X. subst. reflexivity. Qed.
(** The directory part of a path. *)
Lemma directory_parts p : directory p ->
  (~ In slash p /\ dirname p = [] /\ basename p = p) \/
  exists b, b <> [] /\ ~ In slash b /\ basename p = b /\
    ((exists n, p = repeat slash (S n) ++ b /\ dirname p = repeat slash (S n)) \/
     (exists n, p = dirname p ++ repeat slash (S n) ++ b /\ directory (dirname p))).
Proof.
  intros (N & E). destruct (last_slash p) as [H|(a & b & -> & H)].
  - left. split; [exact H|]. unfold dirname, basename. change "/"%char with slash. rewrite rfind_none by exact H. cbn. split; reflexivity.
  - right. exists b. split; [intros ->; apply (E a); reflexivity|]. split; [exact H|]. split; [apply basename_app; exact H|].
    assert (Dn : dirname (a ++ slash :: b) = match drop_slashes (rev (a ++ [slash])) with [] => a ++ [slash] | r => rev r end).
    { unfold dirname. change "/"%char with slash. rewrite rfind_last by exact H.
      replace (Z.to_nat (Z.of_nat (List.length a) + 1)) with (List.length (a ++ [slash])) by (rewrite app_length; cbn [List.length]; lia).
      change (a ++ slash :: b) with (a ++ [slash] ++ b). rewrite app_assoc. rewrite firstn_app, firstn_all, Nat.sub_diag. cbn [firstn]. rewrite app_nil_r. reflexivity. }
    rewrite Dn. rewrite rev_app_distr. change (rev [slash] ++ rev a) with (slash :: rev a). cbn [drop_slashes]. change (Ascii.eqb slash "/") with true. cbv iota.
    destruct (drop_slashes_spec (rev a)) as (n & Er & Hc). destruct (drop_slashes (rev a)) as [|c r] eqn:Ed.
    + left. exists n. rewrite app_nil_r in Er. assert (Ea : a = repeat slash n) by (rewrite <- (rev_involutive a), Er; apply rev_repeat).
      split; [rewrite Ea, repeat_snoc, <- app_assoc; reflexivity|rewrite Ea, repeat_snoc; reflexivity].
    + right. exists n. assert (Ea : a = rev (c :: r) ++ repeat slash n) by (rewrite <- (rev_involutive a), Er, rev_app_distr, rev_repeat; reflexivity). split.
      * rewrite Ea at 1. rewrite repeat_snoc. rewrite <- !app_assoc. reflexivity.
      * cbn [rev]. split; [destruct (rev r); discriminate|]. intros d X. apply app_inj_tail in X. destruct X as [_ X]. apply Hc. exact X.
Qed.
Lemma dirname_shorter p : directory p -> (List.length (dirname p) < List.length p)%nat.
Proof.
  intros H. destruct (directory_parts p H) as [(_ & -> & _)|(b & Nb & _ & _ & [(n & E & ->)|(n & E & _)])].
  - destruct H as (N & _). destruct p; [congruence|cbn; lia].
  - rewrite E, app_length. destruct b; [congruence|cbn [List.length]; lia].
  - assert (X := f_equal (@List.length _) E). rewrite !app_length in X. destruct b; [congruence|cbn [List.length] in *; lia].
Qed.
Lemma basename_nonempty p : directory p -> nonempty (basename p) = true.
Proof.
  intros H. destruct (directory_parts p H) as [(_ & _ & ->)|(b & Nb & _ & -> & _)]; [destruct H as (N & _); destruct p; [congruence|reflexivity]|destruct b; [congruence|reflexivity]].
Qed.
Lemma top_not_directory p : top p = true -> directory p -> p = lit ".".
Proof.
  intros T (N & E). unfold top in T. apply orb_prop in T. destruct T as [T|T]; [|apply text_eqb_spec; exact T].
  exfalso. destruct (@exists_last _ p N) as (a & c & ->). rewrite forallb_app in T. apply andb_prop in T. destruct T as [_ T]. cbn [forallb] in T. rewrite andb_true_r in T.
  apply Ascii.eqb_eq in T. subst c. apply (E a). reflexivity.
Qed.

Lemma set_node_same p n t : set_node p n t p = Some n.
Proof. unfold set_node. rewrite text_eqb_refl. reflexivity. Qed.
Lemma set_node_other p n t q : q <> p -> set_node p n t q = t q.
Proof. intros N. unfold set_node. destruct (text_eqb p q) eqn:E; [apply text_eqb_spec in E; congruence|reflexivity]. Qed.

(** ** Simulation *)
Section Plan.
Variables (D F : text -> Prop).
Hypothesis HD : forall p, D p -> directory p /\ top p = false /\ basename p <> lit "." /\ (top (dirname p) = true \/ D (dirname p)).
Hypothesis HDF : forall p, D p -> F p -> False.
Hypothesis HF : forall p, F p -> top p = false.

Definition room (t : tree) : Prop := (forall p, D p -> t p = None \/ t p = Some Dir) /\ (forall p, F p -> t p <> Some Dir).
Definition later (t t' : tree) : Prop :=
  room t' /\ (forall p, t p = Some Dir -> t' p = Some Dir) /\ (forall p, ~ D p -> ~ F p -> t' p = t p) /\ (forall p, D p -> t' p = t p \/ t' p = Some Dir).

Lemma later_refl t : room t -> later t t.
Proof. clear. intros R. split; [exact R|]. auto. Qed.
Lemma later_trans a b c : later a b -> later b c -> later a c.
Proof.
  clear. intros (_ & A1 & A2 & A3) (R & B1 & B2 & B3). split; [exact R|]. split; [auto|]. split.
  - intros p N M. rewrite B2, A2 by assumption. reflexivity.
  - intros p P. destruct (B3 p P) as [-> | ->]; auto.
Qed.
Lemma dir_in_later t t' p : later t t' -> dir_in t p = true -> dir_in t' p = true.
Proof.
  clear. intros (_ & A & _) H. unfold dir_in in *. destruct (top p); [reflexivity|]. cbn [orb] in *. destruct (t p) as [[|]|] eqn:E; try discriminate. rewrite (A p E). reflexivity.
Qed.
Lemma later_mkdir t p : room t -> D p -> t p = None -> later t (set_node p Dir t).
Proof using HD HDF HF.
  intros (R1 & R2) P N.
  assert (K : forall q, set_node p Dir t q = t q \/ q = p /\ set_node p Dir t q = Some Dir).
  { intros q. destruct (text_eqb p q) eqn:E; [apply text_eqb_spec in E; subst q; right; split; [reflexivity|apply set_node_same]|left; unfold set_node; rewrite E; reflexivity]. }
  split; [split|split; [|split]].
  - intros q Q. destruct (K q) as [-> |(-> & ->)]; auto.
  - intros q Q. destruct (K q) as [-> |(-> & ->)]; [auto|]. destruct (HDF p P Q).
  - intros q Q. destruct (K q) as [-> |(-> & ->)]; auto.
  - intros q Nd Nf. destruct (K q) as [-> |(-> & ->)]; [reflexivity|contradiction].
  - intros q Q. destruct (K q) as [-> |(_ & ->)]; auto.
Qed.
Lemma later_write t p c : room t -> F p -> later t (set_node p (File c) t).
Proof using HD HDF HF.
  intros (R1 & R2) P.
  assert (K : forall q, (q <> p /\ set_node p (File c) t q = t q) \/ q = p /\ set_node p (File c) t q = Some (File c)).
  { intros q. destruct (text_eqb p q) eqn:E; [apply text_eqb_spec in E; subst q; right; split; [reflexivity|apply set_node_same]|].
    left. split; [intros ->; rewrite text_eqb_refl in E; discriminate|unfold set_node; rewrite E; reflexivity]. }
  split; [split|split; [|split]].
  - intros q Q. destruct (K q) as [(_ & ->)|(-> & _)]; [auto|]. destruct (HDF p Q P).
  - intros q Q. destruct (K q) as [(_ & ->)|(_ & ->)]; [auto|discriminate].
  - intros q Q. destruct (K q) as [(_ & ->)|(-> & _)]; [exact Q|]. destruct (R2 p P Q).
  - intros q Nd Nf. destruct (K q) as [(_ & ->)|(-> & _)]; [reflexivity|contradiction].
  - intros q Q. destruct (K q) as [(_ & ->)|(-> & _)]; [auto|]. destruct (HDF p Q P).
Qed.
Lemma dir_of_D t p : room t -> D p -> exists_in t p = true -> dir_in t p = true.
Proof.
  clear. intros (R & _) P E. unfold exists_in, dir_in in *. destruct (top p); [reflexivity|]. cbn [orb] in *. destruct (R p P) as [X|X]; rewrite X in *; [discriminate|reflexivity].
Qed.

(** The first part of a job: it makes directory [d] and comes to [K], whatever the others do. *)
Definition try_mkdir (p : text) (t : tree) : option oserr * tree :=
  if exists_in t p then (Some FileExists, t) else if dir_in t (dirname p) then (None, set_node p Dir t) else (Some OtherOS, t).
Fixpoint ensures (d : text) (K dj : dprog) (t : tree) {struct dj} : Prop :=
  (dj = K /\ dir_in t d = true) \/
  match dj with
  | Probe p k => forall t', later t t' -> ensures d K (k (exists_in t' p)) t'
  | IsDir p k => forall t', later t t' -> ensures d K (k (dir_in t' p)) t'
  | Mkdir p k => D p /\ forall t', later t t' -> ensures d K (k (fst (try_mkdir p t'))) (snd (try_mkdir p t'))
  | _ => False
  end.
Lemma ensures_later d K dj t t' : later t t' -> ensures d K dj t -> ensures d K dj t'.
Proof.
  clear. intros L H. assert (T : forall b, later t' b -> later t b) by (intros b; apply later_trans; exact L).
  destruct dj; cbn [ensures] in *; (destruct H as [(E & H)|H]; [left; split; [exact E|eapply dir_in_later; eassumption]|right]); try exact H; try (intros b Lb; apply H, T, Lb).
  destruct H as (P & H). split; [exact P|]. intros b Lb. apply H, T, Lb.
Qed.

Lemma finish_ensures p k d K t : D p -> dir_in t (dirname p) = true -> (forall t', later t t' -> dir_in t' p = true -> ensures d K (k None) t') ->
  ensures d K (Mkdir p (fun r => match r with None => k None | Some e => IsDir p (fun b => if b then k None else k (Some e)) end)) t.
Proof using HD HDF HF.
  intros P Par H. cbn [ensures]. right. split; [exact P|]. intros t' L. unfold try_mkdir.
  destruct (exists_in t' p) eqn:E.
  - cbn [fst snd]. right. intros t2 L2. assert (Dp : dir_in t2 p = true) by (eapply dir_in_later; [exact L2|]; apply dir_of_D; [apply L|exact P|exact E]).
    rewrite Dp. apply H; [eapply later_trans; eassumption|exact Dp].
  - rewrite (dir_in_later _ _ _ L Par). cbn [fst snd].
    assert (N : t' p = None) by (unfold exists_in in E; apply orb_false_elim in E; destruct E as [_ E]; destruct (t' p); [discriminate|reflexivity]).
    apply H.
    + eapply later_trans; [exact L|]. apply later_mkdir; [apply L|exact P|exact N].
    + unfold dir_in. rewrite set_node_same. apply orb_true_r.
Qed.
Lemma makedirs_ensures fuel : forall p k d K t, D p -> (List.length p <= fuel)%nat -> room t ->
  (forall t', later t t' -> dir_in t' p = true -> ensures d K (k None) t') -> ensures d K (makedirs fuel p k) t.
Proof using HD HDF HF.
  induction fuel as [|fuel IH]; intros p k d K t P L R H; destruct (HD p P) as (Dir_ & Tp & Dot & Par).
  - destruct Dir_ as (N & _). destruct p; [congruence|cbn in L; lia].
  - cbn [makedirs]. rewrite (basename_nonempty p Dir_). rewrite (basename_nonempty p Dir_), andb_true_r.
    destruct (nonempty (dirname p)) eqn:Ne.
    2:{ apply finish_ensures; [exact P| |exact H]. destruct (dirname p); [reflexivity|discriminate]. }
    cbn [ensures]. right. intros t' L'. destruct (exists_in t' (dirname p)) eqn:Ex.
    + apply finish_ensures; [exact P| |].
      * destruct Par as [T|Pd]; [unfold dir_in; rewrite T; reflexivity|]. apply dir_of_D; [apply L'|exact Pd|exact Ex].
      * intros t2 L2. apply H. eapply later_trans; eassumption.
    + destruct Par as [T|Pd]; [unfold exists_in in Ex; rewrite T in Ex; discriminate|].
      apply IH; [exact Pd|assert (X := dirname_shorter p Dir_); lia|apply L'|].
      intros t2 L2 D2. replace (text_eqb (basename p) (lit ".")) with false by (symmetry; destruct (text_eqb (basename p) (lit ".")) eqn:E; [apply text_eqb_spec in E; contradiction|reflexivity]).
      apply finish_ensures; [exact P|exact D2|]. intros t3 L3. apply H. eapply later_trans; [exact L'|]. eapply later_trans; eassumption.
Qed.
Lemma mkdir_ensures d k K t : d = [] \/ D d -> room t -> (forall t', later t t' -> dir_in t' d = true -> ensures d K (k None) t') -> ensures d K (mkdir_or_exist d k) t.
Proof using HD HDF HF.
  intros [-> |P] R H; unfold mkdir_or_exist.
  - cbn [nonempty]. apply H; [apply later_refl; exact R|reflexivity].
  - destruct (HD d P) as ((N & _) & _). destruct d as [|c d]; [congruence|]. cbn [nonempty]. apply makedirs_ensures; [exact P|lia|exact R|exact H].
Qed.

(** A job with directories and its counterpart. *)
Definition rel (t : tree) (dj : dprog) (pj : prog) : Prop :=
  exists d, puts (fun p => F p /\ dirname p = d) pj /\ ((dj = lift pj /\ dir_in t d = true) \/ (busy pj /\ ensures d (lift pj) dj t)).
Lemma rel_later t t' dj pj : later t t' -> rel t dj pj -> rel t' dj pj.
Proof.
  clear. intros L (d & P & [(E & H)|(B & H)]); exists d; (split; [exact P|]); [left; split; [exact E|eapply dir_in_later; eassumption]|right; split; [exact B|eapply ensures_later; eassumption]].
Qed.
Lemma files_mkdir t p : t p = None -> forall q, files (set_node p Dir t) q = files t q.
Proof.
  clear. intros N q. unfold files. destruct (text_eqb p q) eqn:E; [apply text_eqb_spec in E; subst q; rewrite set_node_same, N; reflexivity|]. unfold set_node. rewrite E. reflexivity.
Qed.
Lemma files_write t p c s : (forall q, s q = files t q) -> forall q, put p c s q = files (set_node p (File c) t) q.
Proof. clear. intros H q. unfold put, files, set_node. destruct (text_eqb p q); [reflexivity|apply H]. Qed.
Lemma F_no_dir t p : room t -> F p -> dir_in t p = false.
Proof using HD HDF HF. intros (_ & R) P. unfold dir_in. rewrite (HF p P). cbn [orb]. specialize (R p P). destruct (t p) as [[|]|]; congruence. Qed.
Lemma try_mkdir_later t p : room t -> D p -> later t (snd (try_mkdir p t)) /\ forall q, files (snd (try_mkdir p t)) q = files t q.
Proof using HD HDF HF.
  intros R P. unfold try_mkdir. destruct (exists_in t p) eqn:E; [split; [apply later_refl; exact R|reflexivity]|]. destruct (dir_in t (dirname p)); [|split; [apply later_refl; exact R|reflexivity]].
  assert (N : t p = None) by (unfold exists_in in E; apply orb_false_elim in E; destruct E as [_ E]; destruct (t p); [discriminate|reflexivity]).
  split; [apply later_mkdir; assumption|apply files_mkdir; exact N].
Qed.

Lemma step_rel t dj pj s dj' t' : room t -> rel t dj pj -> (forall p, s p = files t p) -> dstep1 dj t = (dj', t') ->
  exists pj' s', (step1 pj s = (pj', s') \/ pj' = pj /\ s' = s) /\ rel t' dj' pj' /\ later t t' /\ forall p, s' p = files t' p.
Proof using HD HDF HF.
  intros R (d & P & H) S E.
  assert (Lift : dir_in t d = true -> dj = lift pj -> exists pj' s', (step1 pj s = (pj', s') \/ pj' = pj /\ s' = s) /\ rel t' dj' pj' /\ later t t' /\ forall p, s' p = files t' p).
  { clear H. intros Dd ->. destruct pj as [r|p k|p c k]; cbn [lift dstep1] in E.
    - injection E as <- <-. exists (Ret r), s. split; [left; reflexivity|]. split; [exists d; split; [exact P|left; auto]|]. split; [apply later_refl; exact R|exact S].
    - injection E as <- <-. exists (k (s p)), s. split; [left; reflexivity|]. split; [exists d; split; [apply P|left; rewrite S; auto]|]. split; [apply later_refl; exact R|exact S].
    - cbn [puts] in P. destruct P as ((Fp & Ep) & P). rewrite (F_no_dir t p R Fp), Ep, Dd in E. injection E as <- <-.
      exists k, (put p c s). split; [left; reflexivity|]. split.
      + exists d. split; [exact P|]. left. split; [reflexivity|]. eapply dir_in_later; [apply later_write; [exact R|exact Fp]|exact Dd].
      + split; [apply later_write; [exact R|exact Fp]|apply files_write; exact S]. }
  destruct H as [(Ed & Dd)|(B & H)]; [apply Lift; assumption|].
  destruct dj as [o|p k|p k|p k|p k|p c k]; cbn [ensures] in H; (destruct H as [(Ed & Dd)|H]; [apply Lift; assumption|]); try contradiction.
  - cbn [dstep1] in E. injection E as <- <-. exists pj, s. split; [right; auto|]. split; [exists d; split; [exact P|right; split; [exact B|apply H, later_refl, R]]|]. split; [apply later_refl, R|exact S].
  - cbn [dstep1] in E. injection E as <- <-. exists pj, s. split; [right; auto|]. split; [exists d; split; [exact P|right; split; [exact B|apply H, later_refl, R]]|]. split; [apply later_refl, R|exact S].
  - destruct H as (Pp & H). specialize (H t (later_refl t R)). destruct (try_mkdir_later t p R Pp) as (L & Fs).
    assert (X : dj' = k (fst (try_mkdir p t)) /\ t' = snd (try_mkdir p t)).
    { clear - E. cbn [dstep1] in E. unfold try_mkdir. destruct (exists_in t p); [injection E as <- <-; auto|]. destruct (dir_in t (dirname p)); injection E as <- <-; auto. }
    destruct X as (-> & ->). exists pj, s. split; [right; auto|]. split; [exists d; split; [exact P|right; split; [exact B|exact H]]|]. split; [exact L|]. intros q. rewrite Fs. apply S.
Qed.

Lemma step_pool i : forall t djs pjs s djs' t', room t -> Forall2 (rel t) djs pjs -> (forall p, s p = files t p) -> dstep_at i djs t = (djs', t') ->
  exists pjs' s', (step_at i pjs s = (pjs', s') \/ pjs' = pjs /\ s' = s) /\ Forall2 (rel t') djs' pjs' /\ later t t' /\ forall p, s' p = files t' p.
Proof using HD HDF HF.
  induction i as [|i IH]; intros t djs pjs s djs' t' R H S E; (destruct H as [|dj pj djs pjs Hr H]; cbn [dstep_at] in E; [injection E as <- <-; exists [], s; split; [right; auto|]; split; [constructor|]; split; [apply later_refl, R|exact S]|]).
  - destruct (dstep1 dj t) as [dj1 t1] eqn:E1. injection E as <- <-. destruct (step_rel t dj pj s dj1 t1 R Hr S E1) as (pj' & s' & St & Re & L & S').
    exists (pj' :: pjs), s'. split; [destruct St as [St|(-> & ->)]; [left; cbn [step_at]; rewrite St; reflexivity|right; auto]|]. split; [|split; [exact L|exact S']].
    constructor; [exact Re|]. clear - H L. induction H as [|a b la lb Hab H IH]; constructor; [eapply rel_later; eassumption|exact IH].
  - destruct (dstep_at i djs t) as [djs1 t1] eqn:E1. injection E as <- <-. destruct (IH t djs pjs s djs1 t1 R H S E1) as (pjs' & s' & St & Re & L & S').
    exists (pj :: pjs'), s'. split; [destruct St as [St|(-> & ->)]; [left; cbn [step_at]; rewrite St; reflexivity|right; auto]|]. split; [|split; [exact L|exact S']].
    constructor; [eapply rel_later; eassumption|exact Re].
Qed.
Lemma run_pool sched : forall t djs pjs s djs' t', room t -> Forall2 (rel t) djs pjs -> (forall p, s p = files t p) -> dinterleave sched djs t = (djs', t') ->
  exists sched' pjs' s', interleave sched' pjs s = (pjs', s') /\ Forall2 (rel t') djs' pjs' /\ later t t' /\ forall p, s' p = files t' p.
Proof using HD HDF HF.
  induction sched as [|i sched IH]; intros t djs pjs s djs' t' R H S E; cbn [dinterleave] in E.
  - injection E as <- <-. exists [], pjs, s. split; [reflexivity|]. split; [exact H|]. split; [apply later_refl, R|exact S].
  - destruct (dstep_at i djs t) as [djs1 t1] eqn:E1. destruct (step_pool i t djs pjs s djs1 t1 R H S E1) as (pjs1 & s1 & St & Re & L & S1).
    destruct (IH t1 djs1 pjs1 s1 djs' t' (proj1 L) Re S1 E) as (sched' & pjs' & s' & I0 & Re' & L' & S').
    destruct St as [St|(-> & ->)].
    + exists (i :: sched'), pjs', s'. cbn [interleave]. rewrite St. split; [exact I0|]. split; [exact Re'|]. split; [eapply later_trans; eassumption|exact S'].
    + exists sched', pjs', s'. split; [exact I0|]. split; [exact Re'|]. split; [eapply later_trans; eassumption|exact S'].
Qed.
Lemma collect_rel t djs pjs : Forall2 (rel t) djs pjs -> dcollect djs = option_map Done (collect pjs).
Proof.
  clear. induction 1 as [|dj pj djs pjs (d & P & H) FF IH]; [reflexivity|].
  assert (Lift : dj = lift pj -> dcollect (dj :: djs) = option_map Done (collect (pj :: pjs))).
  { intros ->. destruct pj as [[u|e]|p k|p c k]; cbn [lift dcollect collect option_map]; try reflexivity. exact IH. }
  destruct H as [(E & _)|(B & H)]; [apply Lift, E|]. destruct pj as [r|p k|p c k]; [contradiction| |];
    (destruct dj as [o|p' k'|p' k'|p' k'|p' k'|p' c' k']; cbn [ensures] in H; (destruct H as [(E & _)|H]; [apply Lift, E|]); try contradiction; reflexivity).
Qed.

(** One process. *)
Lemma finish_lift pj : forall d t s, puts (fun p => F p /\ dirname p = d) pj -> room t -> dir_in t d = true -> (forall p, s p = files t p) ->
  exists t', dfinish (lift pj) t = (Done (fst (finish pj s)), t') /\ later t t' /\ forall p, snd (finish pj s) p = files t' p.
Proof using HD HDF HF.
  induction pj as [r|p k IH|p c k IH]; intros d t s P R Dd S; cbn [lift dfinish finish].
  - exists t. split; [reflexivity|]. split; [apply later_refl, R|exact S].
  - rewrite <- S. apply (IH (s p) d); [apply P|exact R|exact Dd|exact S].
  - cbn [puts] in P. destruct P as ((Fp & Ep) & P). rewrite (F_no_dir t p R Fp), Ep, Dd. assert (L := later_write t p c R Fp).
    destruct (IH d (set_node p (File c) t) (put p c s) P (proj1 L) (dir_in_later _ _ _ L Dd) (files_write t p c s S)) as (t' & E & L' & S').
    exists t'. split; [exact E|]. split; [eapply later_trans; eassumption|exact S'].
Qed.
Lemma finish_ensured d K dj : forall t, room t -> ensures d K dj t ->
  exists t', dfinish dj t = dfinish K t' /\ later t t' /\ dir_in t' d = true /\ forall p, files t' p = files t p.
Proof using HD HDF HF.
  idtac.
  assert (Base : forall dj t, room t -> dj = K -> dir_in t d = true -> exists t', dfinish dj t = dfinish K t' /\ later t t' /\ dir_in t' d = true /\ forall p, files t' p = files t p).
  { intros dj' t R -> Dd. exists t. split; [reflexivity|]. split; [apply later_refl, R|]. split; [exact Dd|reflexivity]. }
  induction dj as [o|p k IH|p k IH|p k IH|p k IH|p c k IH]; intros t R H; cbn [ensures] in H; (destruct H as [(E & Dd)|H]; [apply Base; assumption|]); try contradiction.
  - cbn [dfinish]. apply IH; [exact R|]. apply H, later_refl, R.
  - cbn [dfinish]. apply IH; [exact R|]. apply H, later_refl, R.
  - destruct H as (Pp & H). specialize (H t (later_refl t R)). destruct (try_mkdir_later t p R Pp) as (L & Fs).
    destruct (IH _ _ (proj1 L) H) as (t' & E & L' & Dd & S). exists t'. split; [|split; [eapply later_trans; eassumption|split; [exact Dd|intros q; rewrite S, Fs; reflexivity]]].
    rewrite <- E. cbn [dfinish]. unfold try_mkdir. destruct (exists_in t p); [reflexivity|]. destruct (dir_in t (dirname p)); reflexivity.
Qed.
Lemma finish_rel t dj pj s : room t -> rel t dj pj -> (forall p, s p = files t p) ->
  exists t', dfinish dj t = (Done (fst (finish pj s)), t') /\ later t t' /\ forall p, snd (finish pj s) p = files t' p.
Proof using HD HDF HF.
  intros R (d & P & H) S. destruct H as [(-> & Dd)|(_ & H)]; [eapply finish_lift; eassumption|].
  destruct (finish_ensured d (lift pj) dj t R H) as (t1 & E & L & Dd & Fs).
  destruct (finish_lift pj d t1 s P (proj1 L) Dd ltac:(intros p; rewrite Fs; apply S)) as (t2 & E2 & L2 & S2).
  exists t2. rewrite E. split; [exact E2|]. split; [eapply later_trans; eassumption|exact S2].
Qed.
Lemma in_turn_rel djs pjs : forall t s, room t -> Forall2 (rel t) djs pjs -> (forall p, s p = files t p) ->
  exists t', din_turn djs t = (Done (fst (in_turn pjs s)), t') /\ later t t' /\ forall p, snd (in_turn pjs s) p = files t' p.
Proof using HD HDF HF.
  revert pjs. induction djs as [|dj djs IH]; intros pjs t s R H S; inversion H as [|? pj ? pjs' Hr H']; subst.
  - exists t. split; [reflexivity|]. split; [apply later_refl, R|exact S].
  - destruct (finish_rel t dj pj s R Hr S) as (t1 & E & L & S1). cbn [din_turn in_turn]. rewrite E.
    destruct (finish pj s) as [[u|e] s1]; cbn [fst snd] in *.
    + assert (H1 : Forall2 (rel t1) djs pjs') by (clear - H' L; induction H' as [|a b la lb Hab H IH]; constructor; [eapply rel_later; eassumption|exact IH]).
      destruct (IH pjs' t1 s1 (proj1 L) H1 S1) as (t2 & E2 & L2 & S2). exists t2. split; [exact E2|]. split; [eapply later_trans; eassumption|exact S2].
    + exists t1. split; [reflexivity|]. split; [exact L|exact S1].
Qed.
Lemma track_rel nproc sched djs pjs t s o t' : room t -> Forall2 (rel t) djs pjs -> (forall p, s p = files t p) -> dtrack nproc sched djs t = (o, t') ->
  exists sched' o' s', track nproc sched' pjs s = (o', s') /\ o = option_map Done o' /\ later t t' /\ forall p, s' p = files t' p.
Proof using HD HDF HF.
  intros R H S E. unfold dtrack in E. unfold track. destruct (1 <? nproc).
  - destruct (dinterleave sched djs t) as [djs' t1] eqn:E1. injection E as <- <-. destruct (run_pool sched t djs pjs s djs' t1 R H S E1) as (sched' & pjs' & s' & I0 & Re & L & S').
    exists sched', (collect pjs'), s'. rewrite I0. split; [reflexivity|]. split; [eapply collect_rel; exact Re|]. split; [exact L|exact S'].
  - destruct (in_turn_rel djs pjs t s R H S) as (t1 & E1 & L & S1). rewrite E1 in E. injection E as <- <-. exists [], (Some (fst (in_turn pjs s))), (snd (in_turn pjs s)).
    split; [destruct (in_turn pjs s); reflexivity|]. split; [reflexivity|]. split; [exact L|exact S1].
Qed.
Lemma stages_ext nproc l : forall f g s, (forall n, (n < List.length l)%nat -> f n = g n) -> stages nproc f l s = stages nproc g l s.
Proof.
  clear. induction l as [|jobs l IH]; intros f g s H; [reflexivity|]. cbn [stages]. rewrite (H (List.length l)) by (cbn; lia).
  destruct (track nproc (g (List.length l)) jobs s) as [[[u|e]|] s1]; try reflexivity. apply IH. intros n Hn. apply H. cbn [List.length]. lia.
Qed.
(** A job that can be started in every tree with room. *)
Definition startable (dj : dprog) (pj : prog) : Prop := forall t, room t -> rel t dj pj.
Lemma stages_rel nproc scheds dl pl : Forall2 (Forall2 startable) dl pl -> forall t s o t', room t -> (forall p, s p = files t p) -> dstages nproc scheds dl t = (o, t') ->
  exists scheds' o' s', stages nproc scheds' pl s = (o', s') /\ o = option_map Done o' /\ later t t' /\ forall p, s' p = files t' p.
Proof using HD HDF HF.
  induction 1 as [|djs pjs dl pl Hj H IH]; intros t s o t' R S E; cbn [dstages] in E.
  - injection E as <- <-. exists (fun _ => []), (Some (Ok tt)), s. split; [reflexivity|]. split; [reflexivity|]. split; [apply later_refl, R|exact S].
  - destruct (dtrack nproc (scheds (List.length dl)) djs t) as [o1 t1] eqn:E1.
    assert (Hj' : Forall2 (rel t) djs pjs) by (clear - Hj R; induction Hj as [|a b la lb Hab Hj IHj]; constructor; [apply Hab, R|exact IHj]).
    destruct (track_rel nproc _ djs pjs t s o1 t1 R Hj' S E1) as (sched' & o1' & s1 & T & -> & L & S1).
    destruct o1' as [[u|e]|]; cbn [option_map] in E.
    + destruct (IH t1 s1 o t' (proj1 L) S1 E) as (scheds' & o' & s' & St & Eo & L' & S').
      exists (fun n => if Nat.eqb n (List.length pl) then sched' else scheds' n), o', s'. split; [|split; [exact Eo|split; [eapply later_trans; eassumption|exact S']]].
      cbn [stages]. rewrite Nat.eqb_refl, T. destruct u. rewrite <- St. apply stages_ext. intros n Hn. replace (Nat.eqb n (List.length pl)) with false by (symmetry; apply Nat.eqb_neq; lia). reflexivity.
    + injection E as <- <-. exists (fun _ => sched'), (Some (Err e)), s1. split; [cbn [stages]; rewrite T; reflexivity|]. split; [reflexivity|]. split; [exact L|exact S1].
    + injection E as <- <-. exists (fun _ => sched'), None, s1. split; [cbn [stages]; rewrite T; reflexivity|]. split; [reflexivity|]. split; [exact L|exact S1].
Qed.
Lemma in_directory_startable d q : d = [] \/ D d -> busy q -> puts (fun p => F p /\ dirname p = d) q -> startable (in_directory d q) q.
Proof using HD HDF HF.
  intros Hd B P t R. exists d. split; [exact P|]. right. split; [exact B|]. unfold in_directory. apply mkdir_ensures; [exact Hd|exact R|].
  intros t' L Dd. destruct (lift q) as [o|p k|p k|p k|p k|p c k]; left; auto.
Qed.
End Plan.
