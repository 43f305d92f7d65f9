(** File names of the conversion: proofs for PropertiesPrepare.v. *)
From Verif Require Import SpecSamples SpecConvert ProofsPaths ProofsText PropertiesResults PropertiesUtils.
From Coq Require Import Lia ZifyBool ZifyNat.
Open Scope Z_scope.
Open Scope list_scope.

Definition gtFine : text := lit "gtFine".
Lemma gtFine_component : component gtFine.
Proof. split; [discriminate|vm_compute; intuition discriminate]. Qed.

(** The directory part of a name. *)
Lemma name_split n : relative n -> n <> [] -> (forall d, n <> d ++ [slash]) ->
  component n \/ exists sub base, n = sub ++ slash :: base /\ component base /\ sub <> [].
Proof.
  intros R N T. destruct (in_dec ascii_dec slash n) as [I|I]; [right|left; split; assumption].
  assert (X : exists a b, n = a ++ slash :: b /\ ~ In slash b).
  { clear R N T. induction n as [|c n IH]; [destruct I|]. destruct (in_dec ascii_dec slash n) as [J|J].
    - destruct (IH J) as (a & b & -> & B). exists (c :: a), b. auto.
    - destruct I as [->|I]; [|contradiction]. exists [], n. auto. }
  destruct X as (a & b & -> & B). exists a, b. split; [reflexivity|]. split.
  - split; [|exact B]. intros ->. apply (T a). reflexivity.
  - intros ->. cbn [app] in R. apply R. reflexivity.
Qed.
(** A name below a split directory, with a suffix. *)
Definition sample_name (n : text) : Prop := n <> [] /\ relative n /\ (forall a b, n <> a ++ lit "//" ++ b) /\ (forall d, n <> d ++ [slash]) /\ ~ occurs gtFine n.

(** The directory and base name of root/gtFine/split/name+suffix. *)
Lemma parts root split n sfx : directory root -> component split -> sample_name n -> ~ In slash sfx ->
  exists sub base, ~ In slash base /\ base <> [] /\ (sub = [] /\ n = base \/ sub <> [] /\ n = sub ++ slash :: base /\ directory sub /\ relative sub /\ ~ occurs gtFine sub) /\ ~ occurs gtFine base /\
    let rest := split ++ match sub with [] => [] | _ => slash :: sub end in
    dirname (root ++ lit "/gtFine/" ++ split ++ lit "/" ++ n ++ sfx) = root ++ lit "/gtFine/" ++ rest /\
    basename (root ++ lit "/gtFine/" ++ split ++ lit "/" ++ n ++ sfx) = base ++ sfx.
Proof.
  intros Hr Hs (N & R & DD & T & O) Hx.
  assert (Last : forall d, directory d -> exists a c, d = a ++ [c] /\ c <> slash).
  { intros d (Nd & Td). destruct d as [|c d] using rev_ind; [congruence|]. exists d, c. split; [reflexivity|]. intros ->. apply (Td d). reflexivity. }
  assert (Ds : directory (root ++ lit "/gtFine/" ++ split)).
  { replace (root ++ lit "/gtFine/" ++ split) with ((root ++ slash :: lit "gtFine") ++ slash :: split) by (rewrite <- app_assoc; reflexivity). apply directory_join, component_directory, Hs. }
  destruct (name_split n R N T) as [[_ C]|(sub & base & E & C & Ns)].
  - exists [], n. split; [exact C|]. split; [exact N|]. split; [left; auto|]. split; [exact O|]. cbv zeta.
    assert (B : ~ In slash (n ++ sfx)) by (intros I; apply in_app_or in I; tauto).
    replace (root ++ lit "/gtFine/" ++ split ++ lit "/" ++ n ++ sfx) with ((root ++ lit "/gtFine/" ++ split) ++ slash :: (n ++ sfx)) by (rewrite <- !app_assoc; reflexivity).
    rewrite app_nil_r. destruct (Last _ Ds) as (a & c & Ea & Hc). split.
    + rewrite Ea. rewrite dirname_app by assumption. reflexivity.
    + apply basename_app. exact B.
  - exists sub, base. destruct C as [Cn Cs]. split; [exact Cs|]. split; [exact Cn|].
    assert (Dsub : directory sub).
    { split; [exact Ns|]. intros d ->. apply (DD d base). rewrite E, <- app_assoc. reflexivity. }
    assert (Rsub : relative sub) by (destruct sub as [|c s]; [exact I|]; rewrite E in R; exact R).
    assert (Osub : ~ occurs gtFine sub) by (intros (a & b & X); apply O; exists a, (b ++ slash :: base); rewrite E, X, <- !app_assoc; reflexivity).
    split; [right; auto|]. split; [intros (a & b & X); apply O; exists (sub ++ slash :: a), b; rewrite E, X, <- app_assoc; reflexivity|]. cbv zeta.
    assert (B : ~ In slash (base ++ sfx)) by (intros I; apply in_app_or in I; tauto).
    rewrite E. destruct sub as [|c0 s0] eqn:Es; [congruence|]. rewrite <- Es in *.
    replace (root ++ lit "/gtFine/" ++ split ++ lit "/" ++ (sub ++ slash :: base) ++ sfx) with ((root ++ lit "/gtFine/" ++ split ++ slash :: sub) ++ slash :: (base ++ sfx)) by (rewrite <- !app_assoc; reflexivity).
    assert (D2 : directory (root ++ lit "/gtFine/" ++ split ++ slash :: sub)).
    { replace (root ++ lit "/gtFine/" ++ split ++ slash :: sub) with ((root ++ lit "/gtFine/" ++ split) ++ slash :: sub) by (rewrite <- !app_assoc; reflexivity). apply directory_join, Dsub. }
    destruct (Last _ D2) as (a & c & Ea & Hc). split.
    + rewrite Ea. rewrite dirname_app by assumption. reflexivity.
    + apply basename_app. exact B.
Qed.
Lemma replace_gtFine root rest proc : ~ occurs gtFine root -> ~ occurs gtFine rest ->
  str_replace (root ++ lit "/gtFine/" ++ rest) gtFine proc = root ++ lit "/" ++ proc ++ lit "/" ++ rest.
Proof.
  intros R S. destruct gtFine_component as [P N]. destruct (unique_component gtFine rest P N S) as [_ U].
  replace (root ++ lit "/gtFine/" ++ rest) with ((root ++ [slash]) ++ gtFine ++ slash :: rest) by (rewrite <- app_assoc; reflexivity).
  rewrite str_replace_once; [rewrite <- app_assoc; reflexivity|exact P|]. apply U. exact R.
Qed.
(** Replacing the directory and the suffix. *)
Lemma target_name root split n sfx new proc : directory root -> ~ occurs gtFine root -> component split -> ~ occurs gtFine split -> sample_name n ->
  ~ In slash sfx -> sfx <> [] -> borderless sfx = true -> ~ occurs sfx n ->
  path_join (str_replace (dirname (root ++ lit "/gtFine/" ++ split ++ lit "/" ++ n ++ sfx)) gtFine proc) (str_replace (basename (root ++ lit "/gtFine/" ++ split ++ lit "/" ++ n ++ sfx)) sfx new)
  = root ++ lit "/" ++ proc ++ lit "/" ++ split ++ lit "/" ++ n ++ new.
Proof.
  intros Hr Or Hs Os Hn Hx Nx Bx Ox. destruct (parts root split n sfx Hr Hs Hn Hx) as (sub & base & Cs & Cn & Sub & Ob & Ed & Eb). cbv zeta in Ed. rewrite Ed, Eb.
  assert (Orest : ~ occurs gtFine (split ++ match sub with [] => [] | _ => slash :: sub end)).
  { destruct Sub as [[-> _]|(Ns & _ & _ & _ & O)]; [rewrite app_nil_r; exact Os|]. destruct sub as [|c s] eqn:E; [congruence|]. apply occurs_slash; [apply gtFine_component|exact Os|exact O]. }
  rewrite replace_gtFine by assumption.
  assert (Obase : ~ occurs sfx base).
  { intros (a & b & X). apply Ox. destruct Sub as [[_ ->]|(_ & -> & _)]; [exists a, b; exact X|]. exists (sub ++ slash :: a), b. rewrite X, <- app_assoc. reflexivity. }
  rewrite replace_suffix by assumption.
  assert (D : directory (root ++ lit "/" ++ proc ++ lit "/" ++ split ++ match sub with [] => [] | _ => slash :: sub end)).
  { destruct Sub as [[-> _]|(Ns & _ & Dsub & _)].
    - rewrite app_nil_r. replace (root ++ lit "/" ++ proc ++ lit "/" ++ split) with ((root ++ lit "/" ++ proc) ++ slash :: split) by (rewrite <- !app_assoc; reflexivity). apply directory_join, component_directory, Hs.
    - destruct sub as [|c s] eqn:E; [congruence|]. replace (root ++ lit "/" ++ proc ++ lit "/" ++ split ++ slash :: c :: s) with ((root ++ lit "/" ++ proc ++ lit "/" ++ split) ++ slash :: c :: s) by (rewrite <- !app_assoc; reflexivity). apply directory_join, Dsub. }
  rewrite join_directory; [|exact D|apply relative_app; [exact Cn|apply component_relative; split; assumption]].
  destruct Sub as [[-> ->]|(Ns & -> & _)].
  - rewrite app_nil_r. rewrite <- !app_assoc. reflexivity.
  - destruct sub as [|c s] eqn:E; [congruence|]. rewrite <- E. rewrite <- !app_assoc. reflexivity.
Qed.
Lemma sibling_name root split n sfx new : directory root -> component split -> sample_name n ->
  ~ In slash sfx -> sfx <> [] -> borderless sfx = true -> ~ occurs sfx n ->
  path_join (dirname (root ++ lit "/gtFine/" ++ split ++ lit "/" ++ n ++ sfx)) (str_replace (basename (root ++ lit "/gtFine/" ++ split ++ lit "/" ++ n ++ sfx)) sfx new)
  = root ++ lit "/gtFine/" ++ split ++ lit "/" ++ n ++ new.
Proof.
  intros Hr Hs Hn Hx Nx Bx Ox. destruct (parts root split n sfx Hr Hs Hn Hx) as (sub & base & Cs & Cn & Sub & Ob & Ed & Eb). cbv zeta in Ed. rewrite Ed, Eb.
  assert (Obase : ~ occurs sfx base).
  { intros (a & b & X). apply Ox. destruct Sub as [[_ ->]|(_ & -> & _)]; [exists a, b; exact X|]. exists (sub ++ slash :: a), b. rewrite X, <- app_assoc. reflexivity. }
  rewrite replace_suffix by assumption.
  assert (D : directory (root ++ lit "/gtFine/" ++ split ++ match sub with [] => [] | _ => slash :: sub end)).
  { destruct Sub as [[-> _]|(Ns & _ & Dsub & _)].
    - rewrite app_nil_r. replace (root ++ lit "/gtFine/" ++ split) with ((root ++ lit "/gtFine") ++ slash :: split) by (rewrite <- !app_assoc; reflexivity). apply directory_join, component_directory, Hs.
    - destruct sub as [|c s] eqn:E; [congruence|]. replace (root ++ lit "/gtFine/" ++ split ++ slash :: c :: s) with ((root ++ lit "/gtFine/" ++ split) ++ slash :: c :: s) by (rewrite <- !app_assoc; reflexivity). apply directory_join, Dsub. }
  rewrite join_directory; [|exact D|apply relative_app; [exact Cn|apply component_relative; split; assumption]].
  destruct Sub as [[-> ->]|(Ns & -> & _)].
  - rewrite app_nil_r. rewrite <- !app_assoc. reflexivity.
  - destruct sub as [|c s] eqn:E; [congruence|]. rewrite <- E. rewrite <- !app_assoc. reflexivity.
Qed.
Lemma sample_suffix n sfx z : sample_name n -> sfx = "_"%char :: gtFine ++ z -> ~ occurs sfx n.
Proof. intros (_ & _ & _ & _ & O) -> (a & b & E). apply O. exists (a ++ ["_"%char]), (z ++ b). rewrite E. rewrite <- !app_assoc. reflexivity. Qed.

(** ** Runs *)
Definition job_files (inst : bool) (j : text * variant) : list text := fst j :: if inst then [inst_file (fst j) label_suffix inst_suffix] else [].
Lemma run_job_reads proc inst ext r d d' j : (forall f, In f (job_files inst j) -> d f = d' f) -> run_job proc inst ext r d j = run_job proc inst ext r d' j.
Proof.
  intros H. unfold run_job, convert_label. cbv zeta. assert (E : d (fst j) = d' (fst j)) by (apply H; left; reflexivity).
  unfold on_disk at 1 3. unfold open_gray at 1 3. rewrite E. destruct inst.
  - assert (E2 : d (inst_file (fst j) label_suffix inst_suffix) = d' (inst_file (fst j) label_suffix inst_suffix)) by (apply H; right; left; reflexivity).
    unfold on_disk, open_gray. rewrite E2. reflexivity.
  - reflexivity.
Qed.
Lemma place_same p c d : place p c d p = Some c.
Proof. unfold place. rewrite text_eqb_refl. reflexivity. Qed.
Lemma place_other p q c d : p <> q -> place p c d q = d q.
Proof. intros H. unfold place. rewrite text_eqb_neq by exact H. reflexivity. Qed.
Lemma run_jobs_ok proc inst ext r (tgt : text * variant -> text) (content : text * variant -> picture) : forall js d,
  (forall j, In j js -> run_job proc inst ext r d j = Ok (tgt j, content j)) ->
  (forall j k f, In j js -> In k js -> In f (job_files inst k) -> tgt j <> f) ->
  (forall j k, In j js -> In k js -> tgt j = tgt k -> j = k) ->
  exists d', run_jobs proc inst ext r js d = (Ok tt, d') /\ (forall j, In j js -> d' (tgt j) = Some (content j)) /\
    forall q, (forall j, In j js -> tgt j <> q) -> d' q = d q.
Proof.
  induction js as [|j js IH]; intros d R S I; [exists d; split; [reflexivity|]; split; [intros j []|reflexivity]|].
  cbn [run_jobs]. rewrite (R j (or_introl eq_refl)).
  destruct (IH (place (tgt j) (content j) d)) as (d' & E & W & K).
  - intros k Hk. rewrite <- (R k (or_intror Hk)). symmetry. apply run_job_reads. intros f F. symmetry. apply place_other. apply (S j k f); [left; reflexivity|right; exact Hk|exact F].
  - intros a b f A B F. apply (S a b f); [right; exact A|right; exact B|exact F].
  - intros a b A B. apply I; right; assumption.
  - exists d'. split; [exact E|]. split.
    + intros k [<-|Hk]; [|apply W; exact Hk].
      destruct (in_dec (fun a b : text => list_eq_dec ascii_dec a b) (tgt j) (map tgt js)) as [M|M].
      * apply in_map_iff in M. destruct M as (k & Ek & Hk). assert (k = j) by (apply I; [right; exact Hk|left; reflexivity|exact Ek]). subst k. apply W. exact Hk.
      * rewrite K; [apply place_same|]. intros k Hk X. apply M. apply in_map_iff. exists k. auto.
    + intros q Hq. rewrite K by (intros k Hk; apply Hq; right; exact Hk). apply place_other. apply Hq. left. reflexivity.
Qed.
