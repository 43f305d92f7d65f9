(** C68: directories and several processes. *)
From Verif Require Import SpecDirs ProofsText ProofsResults ProofsPaths ProofsJobs ProofsDirs ProofsConvert PropertiesCompare PropertiesPrepare PropertiesJobs PropertiesJobs2 ProofsDirs2.
From Coq Require Import Lia ZifyBool ZifyNat.
Open Scope Z_scope.
Open Scope list_scope.

(** ** Several calls of mkdir_or_exist *)
Lemma above_slash p d : directory p -> above p (d ++ lit "/") -> p = d \/ above p d.
Proof.
  intros Dp (_ & rest & E). change "/"%char with slash in E. change (lit "/") with [slash] in E. apply prefix_cases in E. destruct E as [(x & -> & E)|(x & Nx & -> & E)].
  - destruct x as [|c x]; [left; rewrite app_nil_r; reflexivity|]. destruct x; discriminate E.
  - right. split; [exact Dp|]. destruct x as [|c x]; [congruence|]. cbn [app] in E. injection E as <- _. exists x. reflexivity.
Qed.
Lemma closed_above t : closed t -> forall n d p, (List.length d <= n)%nat -> directory d -> dir_in t d = true \/ t d <> None -> top d = false -> above p d -> dir_in t p = true.
Proof.
  intros C. induction n as [|n IH]; intros d p L Dd H Td A.
  - destruct Dd as (N & _). destruct d; [congruence|cbn in L; lia].
  - assert (X : dir_in t (dirname d) = true) by (apply C; [exact Dd|]; destruct H as [H|H]; [|exact H]; unfold dir_in in H; rewrite Td in H; cbn [orb] in H; destruct (t d); [discriminate|discriminate H]).
    destruct (above_step p d Dd A) as [-> |A']; [exact X|]. destruct (top (dirname d)) eqn:T'.
    + destruct A' as (Dp & rest & E). destruct (directory_parts d Dd) as [(_ & E0 & _)|(b & _ & _ & _ & [(m & _ & E0)|(m & _ & E0)])].
      * rewrite E0 in E. destruct p; discriminate E.
      * rewrite E0 in E. exfalso. destruct Dp as (Np & Ep). destruct (@exists_last _ p Np) as (a & c & ->). apply (Ep a). do 2 f_equal.
        assert (I0 : In c (repeat slash (S m))) by (rewrite E; apply in_or_app; left; apply in_or_app; right; left; reflexivity). apply repeat_spec in I0. exact I0.
      * assert (Y := top_not_directory _ T' E0). rewrite Y in E. destruct p as [|c p]; [destruct Dp as (N & _); congruence|]. destruct p; [injection E as _ E; discriminate|discriminate E].
    + apply (IH (dirname d) p); [assert (Y := dirname_shorter d Dd); lia| |left; exact X|exact T'|exact A'].
      destruct (directory_parts d Dd) as [(_ & E0 & _)|(b & _ & _ & _ & [(m & _ & E0)|(m & _ & E0)])]; [rewrite E0 in T'; discriminate|rewrite E0, slashes_top in T'; discriminate|exact E0].
Qed.

(** Every pool of jobs can be run to its end. *)
Lemma dinterleave_app a : forall b jobs t, dinterleave (a ++ b) jobs t = let (jobs', t') := dinterleave a jobs t in dinterleave b jobs' t'.
Proof. induction a as [|i a IH]; intros b jobs t; [reflexivity|]. cbn [app dinterleave]. destruct (dstep_at i jobs t). apply IH. Qed.
Lemma dstep_at_app pre q post t : dstep_at (List.length pre) (pre ++ q :: post) t = let (q', t') := dstep1 q t in (pre ++ q' :: post, t').
Proof. induction pre as [|x pre IH]; [reflexivity|]. cbn [List.length app dstep_at]. rewrite IH. destruct (dstep1 q t). reflexivity. Qed.
Lemma run_one q : forall pre post t, exists n o t', dinterleave (repeat (List.length pre) n) (pre ++ q :: post) t = (pre ++ DRet o :: post, t').
Proof.
  induction q as [o|p k IH|p k IH|p k IH|p k IH|p c k IH]; intros pre post t.
  - exists 0%nat, o, t. reflexivity.
  - destruct (IH (exists_in t p) pre post t) as (n & o & t' & E). exists (S n), o, t'. cbn [repeat dinterleave]. rewrite dstep_at_app. exact E.
  - destruct (IH (dir_in t p) pre post t) as (n & o & t' & E). exists (S n), o, t'. cbn [repeat dinterleave]. rewrite dstep_at_app. exact E.
  - destruct (dstep1 (Mkdir p k) t) as [q' t1] eqn:E1. assert (X : exists e, q' = k e) by (cbn [dstep1] in E1; destruct (exists_in t p); [injection E1 as <- _; eauto|]; destruct (dir_in t (dirname p)); injection E1 as <- _; eauto).
    destruct X as (e & ->). destruct (IH e pre post t1) as (n & o & t' & E). exists (S n), o, t'. cbn [repeat dinterleave]. rewrite dstep_at_app, E1. exact E.
  - destruct (IH (files t p) pre post t) as (n & o & t' & E). exists (S n), o, t'. cbn [repeat dinterleave]. rewrite dstep_at_app. exact E.
  - destruct (dstep1 (Write p c k) t) as [q' t1] eqn:E1. assert (X : q' = k \/ q' = DRet (Failed OtherOS)) by (cbn [dstep1] in E1; destruct (dir_in t p); [injection E1 as <- _; auto|]; destruct (dir_in t (dirname p)); injection E1 as <- _; auto).
    destruct X as [-> | ->].
    + destruct (IH pre post t1) as (n & o & t' & E). exists (S n), o, t'. cbn [repeat dinterleave]. rewrite dstep_at_app, E1. exact E.
    + exists 1%nat, (Failed OtherOS), t1. cbn [repeat dinterleave]. rewrite dstep_at_app, E1. reflexivity.
Qed.
Lemma run_all jobs : forall pre t, exists sched os t', dinterleave sched (pre ++ jobs) t = (pre ++ map DRet os, t').
Proof.
  induction jobs as [|q jobs IH]; intros pre t; [exists [], [], t; reflexivity|].
  destruct (run_one q pre jobs t) as (n & o & t1 & E1). destruct (IH (pre ++ [DRet o]) t1) as (sched & os & t2 & E2).
  exists (repeat (List.length pre) n ++ sched), (o :: os), t2. rewrite dinterleave_app, E1. rewrite <- !app_assoc in E2. cbn [app] in E2. exact E2.
Qed.

Lemma mkdir_pool_step (T : text -> Prop) : (forall f, T f -> no_dots f) -> forall t0 i ds jobs t jobs' t',
  let D := way T in let F := fun _ : text => False in
  let inv jobs t := room D F t /\ closed t /\ Forall2 (fun d dj => ensures D F d (DRet (Done (Ok tt))) dj t) ds jobs /\
    (forall p, t p = t0 p \/ t0 p = None /\ t p = Some Dir /\ D p) in
  inv jobs t -> dstep_at i jobs t = (jobs', t') -> inv jobs' t'.
Proof.
  intros ND t0 i ds jobs t jobs' t' D F inv (R & C & H & Fr) E.
  assert (HD := way_plan T ND). fold D in HD. assert (HDF : forall p, D p -> F p -> False) by (intros p _ []). assert (HF : forall p, F p -> top p = false) by (intros p []).
  (* one job *)
  assert (One : forall d dj dj1 t1, ensures D F d (DRet (Done (Ok tt))) dj t -> dstep1 dj t = (dj1, t1) -> ensures D F d (DRet (Done (Ok tt))) dj1 t1 /\ later D F t t1 /\ closed t1 /\ forall p, t1 p = t0 p \/ t0 p = None /\ t1 p = Some Dir /\ D p).
  { intros d dj dj1 t1 He E1. assert (Lt : later D F t t) by (apply later_refl; exact R).
    destruct dj as [o|p k|p k|p k|p k|p c k]; cbn [ensures] in He.
    - cbn [dstep1] in E1. injection E1 as <- <-. split; [exact He|]. split; [exact Lt|]. split; [exact C|exact Fr].
    - destruct He as [(He & _)|He]; [discriminate|]. cbn [dstep1] in E1. injection E1 as <- <-. split; [apply He, Lt|]. split; [exact Lt|]. split; [exact C|exact Fr].
    - destruct He as [(He & _)|He]; [discriminate|]. cbn [dstep1] in E1. injection E1 as <- <-. split; [apply He, Lt|]. split; [exact Lt|]. split; [exact C|exact Fr].
    - destruct He as [(He & _)|(Dp & He)]; [discriminate|]. specialize (He t Lt). destruct (try_mkdir_later D F HD HDF HF t p R Dp) as (L & _).
      assert (X : dj1 = k (fst (try_mkdir p t)) /\ t1 = snd (try_mkdir p t)).
      { clear - E1. cbn [dstep1] in E1. unfold try_mkdir. destruct (exists_in t p); [injection E1 as <- <-; auto|]. destruct (dir_in t (dirname p)); injection E1 as <- <-; auto. }
      destruct X as (-> & ->). split; [exact He|]. split; [exact L|]. clear He E1. revert L. unfold try_mkdir. destruct (exists_in t p) eqn:Ex; [intros L; split; [exact C|exact Fr]|]. destruct (dir_in t (dirname p)) eqn:Dn; [|intros L; split; [exact C|exact Fr]].
      cbn [fst snd]. intros L. assert (N : t p = None) by (unfold exists_in in Ex; apply orb_false_elim in Ex; destruct Ex as [_ Ex]; destruct (t p); [discriminate|reflexivity]). split.
      + intros q Dq Hq. eapply dir_in_later; [exact L|]. destruct (text_eqb p q) eqn:Eq; [apply text_eqb_spec in Eq; subst q; exact Dn|]. apply C; [exact Dq|]. unfold set_node in Hq. rewrite Eq in Hq. exact Hq.
      + intros q. destruct (text_eqb p q) eqn:Eq.
        * apply text_eqb_spec in Eq. subst q. right. rewrite set_node_same. split; [|auto]. destruct (Fr p) as [<-|(X & _)]; [exact N|exact X].
        * unfold set_node. rewrite Eq. apply Fr.
    - destruct He as [(He & _)|[]]; discriminate.
    - destruct He as [(He & _)|[]]; discriminate. }
  unfold inv. cut (later D F t t' /\ closed t' /\ Forall2 (fun d dj => ensures D F d (DRet (Done (Ok tt))) dj t') ds jobs' /\ (forall p, t' p = t0 p \/ t0 p = None /\ t' p = Some Dir /\ D p)).
  { intros (L & C' & H' & Fr'). split; [apply L|]. auto. }
  clear inv. revert ds jobs jobs' t' H E. induction i as [|i IH]; intros ds jobs jobs' t' H E; (destruct H as [|d dj ds jobs He H]; cbn [dstep_at] in E; [injection E as <- <-; split; [apply later_refl; exact R|]; split; [exact C|]; split; [constructor|exact Fr]|]).
  - destruct (dstep1 dj t) as [dj1 t1] eqn:E1. injection E as <- <-. destruct (One d dj dj1 t1 He E1) as (He1 & L & C1 & Fr1). split; [exact L|]. split; [exact C1|]. split; [|exact Fr1]. constructor; [exact He1|].
    clear - H L. induction H as [|a b la lb Hab H IH]; constructor; [eapply ensures_later; eassumption|exact IH].
  - destruct (dstep_at i jobs t) as [jobs1 t1] eqn:E1. injection E as <- <-. destruct (IH ds jobs jobs1 t1 H E1) as (L & C1 & H1 & Fr1). split; [exact L|]. split; [exact C1|]. split; [|exact Fr1]. constructor; [eapply ensures_later; eassumption|exact H1].
Qed.

(** *** Theorem 1: any number of processes making directories (the same ones, or one inside another) at the same
    time: under every interleaving and up to any moment no call raises an exception; when a call has returned, its
    directory is there with all directories above; nothing else is made, changed or removed; and the calls can
    always run to their end. *)
Theorem directories_made_together : forall ds sched t jobs t', closed t ->
  (forall d, In d ds -> directory d /\ d <> lit "." /\ no_dots (d ++ lit "/") /\ forall p, p = d \/ above p d -> t p = None \/ t p = Some Dir) ->
  dinterleave sched (map mkdir_call ds) t = (jobs, t') ->
  (forall i d o, nth_error ds i = Some d -> nth_error jobs i = Some (DRet o) -> o = Done (Ok tt) /\ dir_in t' d = true /\ forall p, above p d -> dir_in t' p = true) /\
  (forall p, t' p = t p \/ t p = None /\ t' p = Some Dir /\ exists d, In d ds /\ (p = d \/ above p d)) /\
  exists more t'', dinterleave (sched ++ more) (map mkdir_call ds) t = (map (fun _ => DRet (Done (Ok tt))) ds, t'').
Proof.
  intros ds sched t jobs t' C H E.
  set (T := fun f => exists d, In d ds /\ f = d ++ lit "/").
  assert (ND : forall f, T f -> no_dots f) by (intros f (d & Hd & ->); apply (H d Hd)).
  set (D := way T). set (F := fun _ : text => False).
  assert (HD := way_plan T ND). fold D in HD. assert (HDF : forall p, D p -> F p -> False) by (intros p _ []). assert (HF : forall p, F p -> top p = false) by (intros p []).
  assert (DD : forall p, D p -> exists d, In d ds /\ (p = d \/ above p d)).
  { intros p (_ & f & (d & Hd & ->) & A). exists d. split; [exact Hd|]. apply above_slash; [apply A|exact A]. }
  assert (R : room D F t).
  { split; [|intros p []]. intros p Dp. destruct (DD p Dp) as (d & Hd & A). apply (H d Hd). exact A. }
  assert (Din : forall d, In d ds -> D d).
  { intros d Hd. destruct (H d Hd) as (Dd & Nd & _). split; [destruct (top d) eqn:Td; [destruct (Nd (top_not_directory d Td Dd))|reflexivity]|]. exists (d ++ lit "/"). split; [exists d; auto|]. split; [exact Dd|]. exists []. reflexivity. }
  assert (St : Forall2 (fun d dj => ensures D F d (DRet (Done (Ok tt))) dj t) ds (map mkdir_call ds)).
  { assert (G : forall l, (forall d, In d l -> D d) -> Forall2 (fun d dj => ensures D F d (DRet (Done (Ok tt))) dj t) l (map mkdir_call l)).
    { induction l as [|d l IH]; intros Hl; [constructor|]. cbn [map]. constructor; [|apply IH; intros x Hx; apply Hl; right; exact Hx].
      unfold mkdir_call. apply mkdir_ensures; try assumption; [right; apply Hl; left; reflexivity|]. intros t1 L1 Dt. cbn [ensures]. left. auto. }
    apply G, Din. }
  assert (Run : forall sched jobs t1 jobs' t2, room D F t1 /\ closed t1 /\ Forall2 (fun d dj => ensures D F d (DRet (Done (Ok tt))) dj t1) ds jobs /\ (forall p, t1 p = t p \/ t p = None /\ t1 p = Some Dir /\ D p) ->
    dinterleave sched jobs t1 = (jobs', t2) -> room D F t2 /\ closed t2 /\ Forall2 (fun d dj => ensures D F d (DRet (Done (Ok tt))) dj t2) ds jobs' /\ (forall p, t2 p = t p \/ t p = None /\ t2 p = Some Dir /\ D p)).
  { clear - ND. induction sched as [|i sched IH]; intros jobs t1 jobs' t2 Inv E; cbn [dinterleave] in E; [injection E as <- <-; exact Inv|].
    destruct (dstep_at i jobs t1) as [jobs1 t3] eqn:E1. apply (IH jobs1 t3 jobs' t2); [|exact E]. exact (mkdir_pool_step T ND t i ds jobs t1 jobs1 t3 Inv E1). }
  assert (Inv0 : room D F t /\ closed t /\ Forall2 (fun d dj => ensures D F d (DRet (Done (Ok tt))) dj t) ds (map mkdir_call ds) /\ (forall p, t p = t p \/ t p = None /\ t p = Some Dir /\ D p)) by auto.
  destruct (Run sched _ t jobs t' Inv0 E) as (R' & C' & En & Fr). split; [|split].
  - intros i d o Hd Hj. assert (Hin := nth_error_In _ _ Hd). assert (X : ensures D F d (DRet (Done (Ok tt))) (DRet o) t').
    { clear - En Hd Hj. revert i Hd Hj. induction En as [|a b la lb Hab En IH]; intros [|i] Hd Hj; try discriminate; cbn [nth_error] in *; [injection Hd as ->; injection Hj as ->; exact Hab|eapply IH; eassumption]. }
    cbn [ensures] in X. destruct X as [(Eo & Dt)|[]]. injection Eo as ->. split; [reflexivity|]. split; [exact Dt|]. intros p A.
    apply (closed_above t' C' (List.length d) d p); [lia|apply (H d Hin)|left; exact Dt|apply (Din d Hin)|exact A].
  - intros p. destruct (Fr p) as [X|(X & Y & Z)]; [left; exact X|right]. split; [exact X|]. split; [exact Y|apply DD, Z].
  - destruct (run_all jobs [] t') as (more & os & t'' & Em). cbn [app] in Em. exists more, t''. rewrite dinterleave_app, E, Em. f_equal.
    destruct (Run more jobs t' (map DRet os) t'' (conj R' (conj C' (conj En Fr))) Em) as (_ & _ & En' & _).
    clear - En'. remember (map DRet os) as l. revert os Heql. induction En' as [|a b la lb Hab En IH]; intros os E; [reflexivity|]. destruct os as [|o os]; [discriminate|]. injection E as -> ->.
    cbn [map]. cbn [ensures] in Hab. destruct Hab as [(-> & _)|[]]. f_equal. apply (IH os eq_refl).
Qed.
Print Assumptions directories_made_together.

(** *** Theorem 2: a file in the way: mkdir_or_exist raises FileExistsError if it has the name of the directory, another
    OSError if it has the name of a directory above; nothing is changed. *)
Lemma finish_mkdir name k t : dfinish (Mkdir name (fun r => match r with None => k None | Some e => IsDir name (fun b => if b then k None else k (Some e)) end)) t =
  if exists_in t name then dfinish (if dir_in t name then k None else k (Some FileExists)) t
  else if dir_in t (dirname name) then dfinish (k None) (set_node name Dir t) else dfinish (if dir_in t name then k None else k (Some OtherOS)) t.
Proof. cbn [dfinish]. destruct (exists_in t name); [reflexivity|]. destruct (dir_in t (dirname name)); reflexivity. Qed.
Lemma dirname_cases d : directory d -> (nonempty (dirname d) = false \/ top (dirname d) = true) \/ directory (dirname d).
Proof.
  intros Dd. destruct (directory_parts d Dd) as [(_ & -> & _)|(b & _ & _ & _ & [(m & _ & ->)|(m & _ & E0)])]; [left; left; reflexivity|left; right; apply slashes_top|right; exact E0].
Qed.
Lemma above_directory p d : above p d -> directory d -> directory (dirname d) \/ False.
Proof.
  intros A Dd. destruct (above_step p d Dd A) as [-> |A']; [left; apply A|].
  destruct (directory_parts d Dd) as [(_ & E0 & _)|(b & _ & _ & _ & [(m & _ & E0)|(m & _ & E0)])]; [exfalso|exfalso|left; exact E0]; destruct A' as (Dp & rest & E); rewrite E0 in E.
  - destruct p; discriminate E.
  - destruct Dp as (Np & Ep). destruct (@exists_last _ p Np) as (a & c & ->). apply (Ep a). do 2 f_equal.
    assert (I0 : In c (repeat slash (S m))) by (rewrite E; apply in_or_app; left; apply in_or_app; right; left; reflexivity). apply repeat_spec in I0. exact I0.
Qed.
Lemma makedirs_at_file fuel name k t c : closed t -> directory name -> top name = false -> t name = Some (File c) -> dfinish (makedirs fuel name k) t = dfinish (k (Some FileExists)) t.
Proof.
  intros C Dn Tn E. assert (Fin : dfinish (Mkdir name (fun r => match r with None => k None | Some e => IsDir name (fun b => if b then k None else k (Some e)) end)) t = dfinish (k (Some FileExists)) t).
  { rewrite finish_mkdir. unfold exists_in, dir_in. rewrite Tn, E. reflexivity. }
  destruct fuel as [|fuel]; cbn [makedirs]; rewrite (basename_nonempty name Dn); [exact Fin|]. destruct (nonempty (dirname name) && nonempty (basename name)); [|exact Fin].
  cbn [dfinish]. assert (Dd : dir_in t (dirname name) = true) by (apply C; [exact Dn|rewrite E; discriminate]).
  replace (exists_in t (dirname name)) with true; [exact Fin|]. symmetry. unfold exists_in, dir_in in *. destruct (top (dirname name)); [reflexivity|]. cbn [orb] in *. destruct (t (dirname name)); [reflexivity|discriminate].
Qed.
Lemma makedirs_below_file fuel : forall name k t p c, closed t -> (List.length name <= fuel)%nat -> directory name -> top name = false -> above p name -> p <> lit "." -> t p = Some (File c) ->
  dfinish (makedirs fuel name k) t = dfinish (k (Some OtherOS)) t.
Proof.
  induction fuel as [|fuel IH]; intros name k t p c C L Dn Tn A Np E.
  - destruct Dn as (N & _). destruct name; [congruence|cbn in L; lia].
  - assert (Tp : top p = false) by (destruct (top p) eqn:T0; [destruct (Np (top_not_directory p T0 (proj1 A)))|reflexivity]).
    assert (Fp : dir_in t p = false) by (unfold dir_in; rewrite Tp, E; reflexivity).
    assert (Nn : t name = None).
    { destruct (t name) eqn:E1; [|reflexivity]. exfalso. rewrite (closed_above t C (List.length name) name p) in Fp; [discriminate|lia|exact Dn|right; congruence|exact Tn|exact A]. }
    assert (Dd : directory (dirname name)) by (destruct (above_directory p name A Dn) as [X|[]]; exact X).
    cbn [makedirs]. rewrite (basename_nonempty name Dn). rewrite (basename_nonempty name Dn), andb_true_r. replace (nonempty (dirname name)) with true by (destruct Dd as (X & _); destruct (dirname name); [congruence|reflexivity]).
    cbn [dfinish]. destruct (above_step p name Dn A) as [-> |A'].
    + replace (exists_in t (dirname name)) with true by (unfold exists_in; rewrite E; symmetry; apply orb_true_r). rewrite finish_mkdir.
      unfold exists_in. rewrite Tn, Nn. cbn [orb]. rewrite Fp. unfold dir_in. rewrite Tn, Nn. reflexivity.
    + assert (Tnd : top (dirname name) = false).
      { destruct (top (dirname name)) eqn:T0; [|reflexivity]. assert (X := top_not_directory _ T0 Dd). rewrite X in A'. destruct A' as (Dp & rest & Er). destruct p as [|c0 p]; [destruct Dp as (N0 & _); congruence|]. destruct p; [injection Er as _ Er; discriminate Er|discriminate Er]. }
      replace (exists_in t (dirname name)) with false.
      2:{ symmetry. unfold exists_in. rewrite Tnd. cbn [orb]. destruct (t (dirname name)) eqn:E1; [|reflexivity]. exfalso.
          rewrite (closed_above t C (List.length (dirname name)) (dirname name) p) in Fp; [discriminate|lia|exact Dd|right; congruence|exact Tnd|exact A']. }
      rewrite (IH (dirname name) _ t p c); try assumption; [reflexivity|]. assert (X := dirname_shorter name Dn). lia.
Qed.
Theorem directory_blocked_by_file : forall t d, closed t -> directory d -> d <> lit "." ->
  (forall c, t d = Some (File c) -> dfinish (mkdir_call d) t = (Failed FileExists, t)) /\
  (forall p c, above p d -> p <> lit "." -> t p = Some (File c) -> dfinish (mkdir_call d) t = (Failed OtherOS, t)).
Proof.
  intros t d C Dd Nd. assert (Td : top d = false) by (destruct (top d) eqn:T0; [destruct (Nd (top_not_directory d T0 Dd))|reflexivity]).
  assert (U : forall k, mkdir_or_exist d k = makedirs (List.length d) d k) by (intros k; unfold mkdir_or_exist; destruct Dd as (N & _); destruct d; [congruence|reflexivity]). unfold mkdir_call. rewrite U. split.
  - intros c E. rewrite (makedirs_at_file _ d _ t c C Dd Td E). reflexivity.
  - intros p c A Np E. rewrite (makedirs_below_file _ d _ t p c C (le_n _) Dd Td A Np E). reflexivity.
Qed.
Print Assumptions directory_blocked_by_file.

(** ** Jobs *)
Lemma directories_do_not_matter_from : forall (target : text -> Prop) nproc scheds (l : list (list (text * prog))) t s o t', (forall p, s p = files t p) ->
  (forall f, target f -> directory f /\ f <> lit "." /\ no_dots f /\ free t f /\ forall g, target g -> ~ above g f) ->
  (forall js d q, In js l -> In (d, q) js -> busy q /\ puts (fun p => target p /\ dirname p = d) q /\ (d = [] \/ d <> lit "." /\ exists f, target f /\ above d f)) ->
  dstages nproc scheds (map (map (fun j => in_directory (fst j) (snd j))) l) t = (o, t') ->
  exists scheds' o' s', stages nproc scheds' (map (map snd) l) s = (o', s') /\ o = option_map Done o' /\
    (forall p, s' p = files t' p) /\ (forall p, t p = Some Dir -> t' p = Some Dir) /\ (forall f, target f -> t' f <> Some Dir) /\
    (forall p, (forall f, target f -> p <> f /\ ~ above p f) -> t' p = t p).
Proof.
  intros target nproc scheds l t s o t' Sf HT HJ E.
  set (D := way target). assert (HD := way_plan target (fun f Hf => proj1 (proj2 (proj2 (HT f Hf))))). fold D in HD.
  assert (HDF : forall p, D p -> target p -> False) by (intros p (_ & f & Hf & A) Hp; apply (proj2 (proj2 (proj2 (proj2 (HT f Hf)))) p Hp A)).
  assert (HF : forall p, target p -> top p = false) by (intros p Hp; destruct (HT p Hp) as (Dp & Np & _); destruct (top p) eqn:T0; [destruct (Np (top_not_directory p T0 Dp))|reflexivity]).
  assert (R : room D target t).
  { split; [intros p (_ & f & Hf & A); apply (HT f Hf); exact A|intros p Hp; apply (HT p Hp)]. }
  assert (St : Forall2 (Forall2 (startable D target)) (map (map (fun j => in_directory (fst j) (snd j))) l) (map (map snd) l)).
  { assert (G : forall js, (forall d q, In (d, q) js -> busy q /\ puts (fun p => target p /\ dirname p = d) q /\ (d = [] \/ d <> lit "." /\ exists f, target f /\ above d f)) -> Forall2 (startable D target) (map (fun j => in_directory (fst j) (snd j)) js) (map snd js)).
    { induction js as [|[d q] js IH]; intros H; [constructor|]. cbn [map fst snd]. constructor; [|apply IH; intros d' q' I0; apply H; right; exact I0].
      destruct (H d q (or_introl eq_refl)) as (B & P & Dq). apply (in_directory_startable D target HD HDF HF); [|exact B|exact P].
      destruct Dq as [-> |(Nd & f & Hf & A)]; [left; reflexivity|right]. split; [|exists f; auto]. destruct (top d) eqn:T0; [destruct (Nd (top_not_directory d T0 (proj1 A)))|reflexivity]. }
    clear - G HJ. induction l as [|js l IH]; [constructor|]. cbn [map]. constructor; [apply G; intros d q I0; apply (HJ js d q (or_introl eq_refl) I0)|apply IH; intros js' d q I1; apply HJ; right; exact I1]. }
  destruct (stages_rel D target HD HDF HF nproc scheds _ _ St t s o t' R Sf E) as (scheds' & o' & s' & Es & Eo & (Rt' & L1 & L2 & _) & S').
  exists scheds', o', s'. split; [exact Es|]. split; [exact Eo|]. split; [exact S'|]. split; [exact L1|]. split; [intros f Hf; apply (proj2 Rt'), Hf|].
  intros p Hp. apply L2; [intros (_ & f & Hf & A); apply (proj2 (Hp f Hf)), A|intros Hf; destruct (proj1 (Hp p Hf)); reflexivity].
Qed.
(** *** Theorem 3: jobs that make the directory of their files first behave, under every schedule, as jobs of C64 for
    which the directories are there: for every run there is a run of those with the same files and the same outcome;
    no directory is removed, and only directories above the files are made. *)
Theorem directories_do_not_matter : forall (target : text -> Prop) nproc scheds (l : list (list (text * prog))) t o t',
  (forall f, target f -> directory f /\ f <> lit "." /\ no_dots f /\ free t f /\ forall g, target g -> ~ above g f) ->
  (forall js d q, In js l -> In (d, q) js -> busy q /\ puts (fun p => target p /\ dirname p = d) q /\ (d = [] \/ d <> lit "." /\ exists f, target f /\ above d f)) ->
  dstages nproc scheds (map (map (fun j => in_directory (fst j) (snd j))) l) t = (o, t') ->
  exists scheds' o' s', stages nproc scheds' (map (map snd) l) (files t) = (o', s') /\ o = option_map Done o' /\
    (forall p, s' p = files t' p) /\ (forall p, t p = Some Dir -> t' p = Some Dir) /\ (forall f, target f -> t' f <> Some Dir) /\
    (forall p, (forall f, target f -> p <> f /\ ~ above p f) -> t' p = t p).
Proof. intros target nproc scheds l t o t' HT HJ E. exact (directories_do_not_matter_from target nproc scheds l t (files t) o t' (fun p => eq_refl) HT HJ E). Qed.
Print Assumptions directories_do_not_matter.

(** ** Examples *)
(** Two processes make a/b and a/b/c in an empty directory, step by step in turn; both find nothing there. *)
Definition bare : tree := fun _ => None.
Definition two := [lit "a/b"; lit "a/b/c"].
Example two_meet : closed bare /\ forall d, In d two -> directory d /\ d <> lit "." /\ no_dots (d ++ lit "/") /\ forall p, p = d \/ above p d -> bare p = None \/ bare p = Some Dir.
Proof.
  assert (N : forall d, (forall a b, d ++ lit "/" <> a ++ lit "/./" ++ b) -> no_dots (d ++ lit "/")) by (intros d H (a & b & E); exact (H a b E)).
  assert (ND : forall n s a b, (List.length s <= n)%nat -> ~ In "."%char s -> s <> a ++ lit "/./" ++ b).
  { intros n s a b _ H ->. apply H. apply in_or_app. right. right. left. reflexivity. }
  split; [intros p _ H; destruct (H eq_refl)|]. intros d [<- |[<- |[]]].
  - split; [split; [discriminate|]; intros a E; apply (f_equal (@rev _)) in E; rewrite rev_app_distr in E; vm_compute in E; discriminate E|]. split; [discriminate|]. split; [|intros; left; reflexivity].
    apply N. intros a b. apply (ND _ _ a b (le_n _)). cbn. intuition discriminate.
  - split; [split; [discriminate|]; intros a E; apply (f_equal (@rev _)) in E; rewrite rev_app_distr in E; vm_compute in E; discriminate E|]. split; [discriminate|]. split; [|intros; left; reflexivity].
    apply N. intros a b. apply (ND _ _ a b (le_n _)). cbn. intuition discriminate.
Qed.
Example two_race : let (jobs, t) := dinterleave [0;1;0;1;1;0;1;0;1;1;0;1;0;1;0;1;0]%nat (map mkdir_call two) bare in
  jobs = [DRet (Done (Ok tt)); DRet (Done (Ok tt))] /\ map (dir_in t) [lit "a"; lit "a/b"; lit "a/b/c"; lit "b"] = [true; true; true; false].
Proof. vm_compute. split; reflexivity. Qed.
(** Without the second look at the directory the race would be an error: mkdir itself fails for one of them. *)
Example mkdir_alone : fst (dinterleave [0;1]%nat [Mkdir (lit "a") (fun r => DRet match r with None => Done (Ok tt) | Some e => Failed e end); Mkdir (lit "a") (fun r => DRet match r with None => Done (Ok tt) | Some e => Failed e end)] bare)
  = [DRet (Done (Ok tt)); DRet (Failed FileExists)].
Proof. vm_compute. reflexivity. Qed.
(** A file in the way. *)
Example blocked : fst (dfinish (mkdir_call (lit "a/b")) (set_node (lit "a") Dir (set_node (lit "a/b") (File Partial) bare))) = Failed FileExists /\
  fst (dfinish (mkdir_call (lit "a/b/c")) (set_node (lit "a") Dir (set_node (lit "a/b") (File Partial) bare))) = Failed OtherOS.
Proof. vm_compute. split; reflexivity. Qed.
(** Two jobs that write o/x/1 and o/x/2 into a directory neither finds at first, with every step of the one
    before the same step of the other. *)
Definition writer (f : text) : text * prog := (lit "o/x", Put f Partial (Put f (Whole (Gray (mkImage 1 1 [[7]]))) (Ret (Ok tt)))).
Definition writers := [[writer (lit "o/x/1"); writer (lit "o/x/2")]].
Example writers_race : match dstages 2 (fun _ => [0;1;0;1;0;1;0;1;0;1;0;1;0;1;0;1;0;1]%nat) (map (map (fun j => in_directory (fst j) (snd j))) writers) bare with
  | (o, t) => o = Some (Done (Ok tt)) /\ dir_in t (lit "o/x") = true /\ files t (lit "o/x/1") = Some (Whole (Gray (mkImage 1 1 [[7]]))) /\ files t (lit "o/x/2") = Some (Whole (Gray (mkImage 1 1 [[7]])))
  end.
Proof. vm_compute. auto. Qed.
Definition targets (f : text) : Prop := f = lit "o/x/1" \/ f = lit "o/x/2".
Lemma no_dots_without s : ~ In "."%char s -> no_dots s.
Proof. intros H (a & b & ->). apply H. apply in_or_app. right. right. left. reflexivity. Qed.
Example writers_meet :
  (forall f, targets f -> directory f /\ f <> lit "." /\ no_dots f /\ free bare f /\ forall g, targets g -> ~ above g f) /\
  (forall js d q, In js writers -> In (d, q) js -> busy q /\ puts (fun p => targets p /\ dirname p = d) q /\ (d = [] \/ d <> lit "." /\ exists f, targets f /\ above d f)).
Proof.
  assert (Dir5 : forall f, targets f -> directory f) by (intros f [-> | ->]; (split; [discriminate|]; intros a E; apply (f_equal (@rev _)) in E; rewrite rev_app_distr in E; vm_compute in E; discriminate E)).
  assert (DX : directory (lit "o/x")) by (split; [discriminate|]; intros a E; apply (f_equal (@rev _)) in E; rewrite rev_app_distr in E; vm_compute in E; discriminate E).
  split.
  - intros f Hf. split; [apply Dir5, Hf|]. split; [destruct Hf as [-> | ->]; discriminate|]. split; [apply no_dots_without; destruct Hf as [-> | ->]; cbn; intuition discriminate|].
    split; [split; [discriminate|intros; left; reflexivity]|]. intros g Hg (_ & rest & E). apply (f_equal (@List.length _)) in E. rewrite app_length in E. cbn [List.length] in E.
    assert (L : forall x, targets x -> List.length x = 5%nat) by (intros x [-> | ->]; reflexivity). rewrite (L f Hf), (L g Hg) in E. lia.
  - intros js d q [<- |[]] I0. assert (X : exists f, targets f /\ d = lit "o/x" /\ q = snd (writer f)).
    { destruct I0 as [E|[E|[]]]; injection E as <- <-; [exists (lit "o/x/1")|exists (lit "o/x/2")]; split; unfold targets; auto. }
    destruct X as (f & Hf & -> & ->). split; [exact I|]. assert (Df : dirname f = lit "o/x") by (destruct Hf as [-> | ->]; reflexivity).
    split; [cbn [snd writer puts]; auto|]. right. split; [discriminate|]. exists f. split; [exact Hf|]. split; [exact DX|]. destruct Hf as [-> | ->]; eexists; reflexivity.
Qed.
