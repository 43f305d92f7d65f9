(** Strings and paths: proofs for ModelConvert.v and ModelSamples.v. *)
From Verif Require Import SpecPaths ModelConvert ProofsImage ProofsText PropertiesResults PropertiesUtils.
From Coq Require Import Lia ZifyBool ZifyNat.
Open Scope Z_scope.
Open Scope list_scope.

Definition slash : ascii := "/"%char.

Lemma rfind_none c t : ~ In c t -> rfind c t = -1.
Proof.
  induction t as [|a t IH]; intros H; [reflexivity|]. cbn [rfind]. rewrite IH by (intros X; apply H; right; exact X).
  cbn. destruct (Ascii.eqb_spec a c) as [->|]; [exfalso; apply H; left; reflexivity|reflexivity].
Qed.
Lemma rfind_last c a b : ~ In c b -> rfind c (a ++ c :: b) = Z.of_nat (List.length a).
Proof.
  intros H. induction a as [|x a IH].
  - cbn [app rfind List.length]. rewrite rfind_none by exact H. cbn. rewrite Ascii.eqb_refl. reflexivity.
  - cbn [app rfind List.length]. rewrite IH. replace (0 <=? Z.of_nat (List.length a)) with true by lia. lia.
Qed.
Lemma basename_app a b : ~ In slash b -> basename (a ++ slash :: b) = b.
Proof.
  intros H. unfold basename. change "/"%char with slash. rewrite rfind_last by exact H.
  replace (Z.to_nat (Z.of_nat (List.length a) + 1)) with (List.length (a ++ [slash])) by (rewrite app_length; cbn [List.length]; lia).
  change (a ++ slash :: b) with (a ++ [slash] ++ b). rewrite app_assoc. rewrite skipn_app, skipn_all, Nat.sub_diag. reflexivity.
Qed.
Lemma dirname_app a c b : c <> slash -> ~ In slash b -> dirname ((a ++ [c]) ++ slash :: b) = a ++ [c].
Proof.
  intros Hc H. unfold dirname. change "/"%char with slash. rewrite rfind_last by exact H.
  replace (Z.to_nat (Z.of_nat (List.length (a ++ [c])) + 1)) with (List.length ((a ++ [c]) ++ [slash])) by (rewrite (app_length (a ++ [c])); cbn [List.length]; lia).
  change ((a ++ [c]) ++ slash :: b) with ((a ++ [c]) ++ [slash] ++ b). rewrite (app_assoc (a ++ [c])). rewrite firstn_app, firstn_all, Nat.sub_diag. cbn [firstn]. rewrite app_nil_r.
  rewrite rev_app_distr. cbn [rev app drop_slashes]. change (Ascii.eqb slash "/") with true. cbn iota. rewrite rev_app_distr. cbn [rev app drop_slashes].
  change "/"%char with slash. destruct (Ascii.eqb_spec c slash) as [|_]; [contradiction|]. cbn [rev]. rewrite rev_involutive. reflexivity.
Qed.

(** ** replace *)
Lemma startswith_occ t pat : startswith t pat = true -> exists b, t = pat ++ b.
Proof. apply startswith_spec. Qed.
Lemma replace_none fuel pat new : forall t, ~ occurs pat t -> replace_all fuel pat new t = t.
Proof.
  induction fuel as [|fuel IH]; [reflexivity|]. intros [|c r] H; [reflexivity|]. cbn [replace_all].
  destruct (startswith (c :: r) pat) eqn:E.
  - exfalso. apply H. apply startswith_occ in E. destruct E as (b & E). exists [], b. exact E.
  - f_equal. apply IH. intros (a & b & E0). apply H. exists (c :: a), b. rewrite E0. reflexivity.
Qed.
Lemma replace_first fuel pat new : pat <> [] -> forall a b, (List.length (a ++ pat ++ b) <= fuel)%nat ->
  (forall a' b', a ++ pat ++ b = a' ++ pat ++ b' -> a' = a) -> replace_all fuel pat new (a ++ pat ++ b) = a ++ new ++ b.
Proof.
  intros N. induction fuel as [|fuel IH]; intros a b L U.
  - destruct pat; [congruence|]. rewrite app_length in L. cbn in L. lia.
  - destruct a as [|x a].
    + cbn [app]. cbn [app] in U, L. assert (D : exists c r, pat ++ b = c :: r) by (destruct pat; [congruence|eexists; eexists; reflexivity]).
      destruct D as (c & r & D). rewrite D. cbn [replace_all]. rewrite <- D.
      replace (startswith (pat ++ b) pat) with true by (symmetry; apply startswith_spec; eauto).
      rewrite skipn_app, skipn_all, Nat.sub_diag. cbn [skipn app]. f_equal. apply replace_none. intros (x & y & E).
      assert (X := U (pat ++ x) y). destruct pat as [|p0 pat']; [congruence|]. discriminate X. rewrite E. rewrite <- app_assoc. reflexivity.
    + cbn [app replace_all]. destruct (startswith _ pat) eqn:E.
      * apply startswith_occ in E. destruct E as (y & E). discriminate (U [] y E).
      * f_equal. apply IH; [cbn in L; lia|]. intros a' b' E'. assert (X := U (x :: a') b'). cbn [app] in X. rewrite E' in X. specialize (X eq_refl). injection X as ->. reflexivity.
Qed.
Lemma str_replace_once pat new a b : pat <> [] -> (forall a' b', a ++ pat ++ b = a' ++ pat ++ b' -> a' = a) -> str_replace (a ++ pat ++ b) pat new = a ++ new ++ b.
Proof. intros N U. apply replace_first; auto. Qed.

(** A pattern without slashes occurs on one side of a slash. *)
Lemma occurs_split pat x y a b : ~ In slash pat -> x ++ slash :: y = a ++ pat ++ b ->
  (exists z, x = a ++ pat ++ z) \/ (exists z, a = x ++ slash :: z /\ y = z ++ pat ++ b) \/ pat = [].
Proof.
  intros N E. rewrite app_assoc in E. apply app_eq_app in E. destruct E as (l & [[E1 E2]|[E1 E2]]).
  - left. exists l. rewrite E1. rewrite <- app_assoc. reflexivity.
  - destruct l as [|c l].
    + rewrite app_nil_r in E1. cbn [app] in E2. left. exists []. rewrite app_nil_r. symmetry. exact E1.
    + injection E2 as <- E2. symmetry in E1. change (x ++ slash :: l) with (x ++ [slash] ++ l) in E1.
      (* a ++ pat = x ++ slash :: l *)
      symmetry in E1. apply app_eq_app in E1. destruct E1 as (m & [[F1 F2]|[F1 F2]]).
      * (* a = x ++ m, slash :: l = m ++ pat *)
        destruct m as [|c m]; cbn [app] in F2.
        -- exfalso. apply N. rewrite <- F2. left. reflexivity.
        -- injection F2 as <- F2. right; left. exists m. split; [exact F1|]. rewrite E2, F2, <- app_assoc. reflexivity.
      * (* x = a ++ m, pat = m ++ slash :: l *)
        exfalso. apply N. rewrite F2. apply in_or_app. right. left. reflexivity.
Qed.
Lemma occurs_slash pat x y : ~ In slash pat -> ~ occurs pat x -> ~ occurs pat y -> ~ occurs pat (x ++ slash :: y).
Proof.
  intros N X Y (a & b & E). destruct (occurs_split pat x y a b N E) as [(z & Z)|[(z & _ & Z)|Z]].
  - apply X. exists a, z. exact Z.
  - apply Y. exists z, b. exact Z.
  - apply X. exists [], x. rewrite Z. reflexivity.
Qed.
Lemma self_only (pat a b : text) : pat = a ++ pat ++ b -> a = [] /\ b = [].
Proof. intros E. assert (L : List.length pat = (List.length a + (List.length pat + List.length b))%nat) by (rewrite E at 1; rewrite !app_length; lia). destruct a, b; cbn in L; try lia; auto. Qed.
(** The pattern as one whole component of a path. *)
Lemma unique_component pat r : pat <> [] -> ~ In slash pat -> ~ occurs pat r ->
  (forall a' b', pat ++ slash :: r = a' ++ pat ++ b' -> a' = []) /\
  forall q, ~ occurs pat q -> forall a' b', (q ++ [slash]) ++ pat ++ slash :: r = a' ++ pat ++ b' -> a' = q ++ [slash].
Proof.
  intros P N R.
  assert (A : forall a' b', pat ++ slash :: r = a' ++ pat ++ b' -> a' = []).
  { intros a' b' E. destruct (occurs_split pat pat r a' b' N E) as [(z & Z)|[(z & _ & Z)|Z]]; [|exfalso; apply R; exists z, b'; exact Z|contradiction].
    apply (self_only pat a' z) in Z. apply Z. }
  split; [exact A|]. intros q Q a' b' E. rewrite <- app_assoc in E. cbn [app] in E.
  destruct (occurs_split pat q (pat ++ slash :: r) a' b' N E) as [(z & Z)|[(z & Z1 & Z2)|Z]]; [exfalso; apply Q; exists a', z; exact Z| |contradiction].
  apply A in Z2. rewrite Z2 in Z1. exact Z1.
Qed.

(** A suffix that does not overlap itself. *)
Definition borderless (pat : text) : bool := forallb (fun d => negb (startswith pat (skipn d pat))) (seq 1 (List.length pat - 1)).
Lemma unique_suffix pat base : borderless pat = true -> pat <> [] -> ~ occurs pat base ->
  forall a' b', base ++ pat = a' ++ pat ++ b' -> a' = base /\ b' = [].
Proof.
  intros B P O a' b' E.
  assert (L : (List.length base + List.length pat = List.length a' + List.length pat + List.length b')%nat) by (rewrite <- app_length, E, !app_length; lia).
  destruct (Nat.lt_ge_cases (List.length a') (List.length base)) as [C|C].
  - exfalso. apply app_eq_app in E. destruct E as (l & [[E1 E2]|[E1 E2]]).
    + (* base = a' ++ l, pat ++ b' = l ++ pat *)
      symmetry in E2. apply app_eq_app in E2. destruct E2 as (m & [[F1 F2]|[F1 F2]]).
      * (* l = pat ++ m *) apply O. exists a', m. rewrite E1, F1. reflexivity.
      * (* pat = l ++ m, pat = m ++ b' *)
        destruct l as [|c l]; [rewrite app_nil_r in E1; subst; lia|]. destruct m as [|c' m].
        -- rewrite app_nil_r in F1. apply O. exists a', []. rewrite app_nil_r, E1, F1. reflexivity.
        -- unfold borderless in B. rewrite forallb_forall in B. specialize (B (List.length (c :: l))).
           rewrite in_seq in B. assert (LP : List.length pat = (List.length (c :: l) + List.length (c' :: m))%nat) by (rewrite F1 at 1; apply app_length).
           specialize (B ltac:(cbn [List.length] in *; lia)).
           assert (S : skipn (List.length (c :: l)) pat = c' :: m) by (rewrite F1 at 1; rewrite skipn_app, skipn_all, Nat.sub_diag; reflexivity).
           rewrite S in B. assert (X : startswith pat (c' :: m) = true) by (apply startswith_spec; exists b'; exact F2). rewrite X in B. discriminate.
    + assert (X : List.length a' = (List.length base + List.length l)%nat) by (rewrite E1; apply app_length). lia.
  - assert (Lb : List.length b' = 0%nat) by lia. destruct b'; [|discriminate]. rewrite app_nil_r in E. apply app_inv_tail in E. auto.
Qed.
Lemma replace_suffix pat base new : borderless pat = true -> pat <> [] -> ~ occurs pat base -> str_replace (base ++ pat) pat new = base ++ new.
Proof.
  intros B P O. assert (U := unique_suffix pat base B P O).
  replace (base ++ pat) with (base ++ pat ++ []) by (rewrite app_nil_r; reflexivity). replace (base ++ new) with (base ++ new ++ []) by (rewrite app_nil_r; reflexivity).
  apply str_replace_once; [exact P|]. intros a' b' E. rewrite app_nil_r in E. apply U in E. apply E.
Qed.

(** ** join *)
Lemma starts_slash c r : startswith (c :: r) (lit "/") = Ascii.eqb slash c.
Proof. change (startswith (c :: r) (lit "/")) with (Ascii.eqb slash c && startswith r []). destruct r; apply andb_true_r. Qed.
Lemma relative_spec t : relative t <-> startswith t (lit "/") = false.
Proof.
  destruct t as [|c r]; [cbn; tauto|]. rewrite starts_slash. cbn [relative]. split.
  - intros H. destruct (Ascii.eqb_spec slash c) as [E|]; [exfalso; apply H; symmetry; exact E|reflexivity].
  - intros H ->. rewrite Ascii.eqb_refl in H. discriminate.
Qed.
Lemma endswith_slash d c : endswith (d ++ [c]) (lit "/") = Ascii.eqb slash c.
Proof. unfold endswith. rewrite rev_app_distr. cbn [rev app]. apply (starts_slash c (rev d)). Qed.
Lemma join_inside dir rel : relative rel -> inside dir rel (path_join dir rel).
Proof.
  intros R. apply relative_spec in R. unfold path_join. rewrite R. destruct (rev dir) as [|c r] eqn:E.
  - assert (dir = []) by (rewrite <- (rev_involutive dir), E; reflexivity). subst. constructor.
  - assert (D : dir = rev r ++ [c]) by (rewrite <- (rev_involutive dir), E; reflexivity). rewrite D.
    replace (nonempty (rev r ++ [c])) with true by (destruct (rev r); reflexivity). rewrite endswith_slash.
    destruct (Ascii.eqb_spec slash c) as [<-|N]; rewrite <- app_assoc; constructor. intros X. apply N. symmetry. exact X.
Qed.
Lemma join_directory dir rel : directory dir -> relative rel -> path_join dir rel = dir ++ slash :: rel.
Proof.
  intros (N & T) Hr. assert (X := join_inside dir rel Hr). inversion X as [r E1 E2 E3|d r E1 E2 E3|d c r C E1 E2 E3].
  - congruence.
  - exfalso. apply (T d). auto.
  - rewrite <- app_assoc. reflexivity.
Qed.
Lemma directory_join d r : directory r -> directory (d ++ slash :: r).
Proof.
  intros (N & T). split; [destruct d; discriminate|]. intros x E. destruct r as [|c r] using rev_ind; [congruence|]. clear IHr.
  change (d ++ slash :: r ++ [c]) with (d ++ (slash :: r) ++ [c]) in E. rewrite app_assoc in E. apply app_inj_tail in E. destruct E as [_ ->]. apply (T r). reflexivity.
Qed.
Lemma component_directory c : component c -> directory c.
Proof. intros (N & S). split; [exact N|]. intros d ->. apply S. apply in_or_app. right. left. reflexivity. Qed.
Lemma component_relative c : component c -> relative c.
Proof. intros (N & S). destruct c as [|a c]; [exact I|]. intros ->. apply S. left. reflexivity. Qed.
Lemma relative_app a b : a <> [] -> relative a -> relative (a ++ b).
Proof. destruct a; [congruence|]. intros _ H. exact H. Qed.
(** ** splitext *)
Lemma splitext_spec q base ext : (q = [] \/ exists q', q = q' ++ [slash]) -> ~ In slash base -> (exists c, In c base /\ c <> "."%char) -> ~ In "."%char ext -> ~ In slash ext ->
  splitext (q ++ base ++ "."%char :: ext) = (q ++ base, "."%char :: ext).
Proof.
  intros Q B (c & C & D) E S. unfold splitext.
  assert (Rs : rfind "/" (q ++ base ++ "."%char :: ext) = Z.of_nat (List.length q) - 1).
  { assert (N : ~ In slash (base ++ "."%char :: ext)) by (intros I; apply in_app_or in I; destruct I as [I|[I|I]]; [exact (B I)|discriminate I|exact (S I)]).
    destruct Q as [->|(q' & ->)].
    - cbn [app List.length]. apply rfind_none. exact N.
    - rewrite <- (app_assoc q'). cbn [app]. rewrite rfind_last by exact N. rewrite app_length. cbn [List.length]. lia. }
  assert (Rd : rfind "." (q ++ base ++ "."%char :: ext) = Z.of_nat (List.length (q ++ base))).
  { rewrite app_assoc. apply rfind_last. exact E. }
  rewrite Rs, Rd. rewrite app_length in *.
  assert (P : (0 < List.length base)%nat) by (destruct base; [destruct C|cbn; lia]).
  replace (Z.of_nat (List.length q) - 1 <? Z.of_nat (List.length q + List.length base)) with true by lia.
  match goal with |- context [existsb ?f ?l] => replace (existsb f l) with true end.
  - cbn [andb]. rewrite Nat2Z.id. rewrite app_assoc. rewrite <- (app_length q base). rewrite firstn_app, firstn_all, Nat.sub_diag, skipn_app, skipn_all, Nat.sub_diag. cbn [firstn skipn app]. rewrite app_nil_r. reflexivity.
  - symmetry. apply existsb_exists. apply In_nth with (d := "."%char) in C. destruct C as (i & Li & C).
    exists (Z.of_nat (List.length q + i)). split.
    + apply in_map_iff. exists (Z.of_nat i). split; [lia|]. apply ProofsImage.in_zseq. lia.
    + rewrite Nat2Z.id. rewrite app_nth2 by lia. replace (List.length q + i - List.length q)%nat with i by lia. rewrite app_nth1 by exact Li. rewrite C.
      destruct (Ascii.eqb_spec c "."); [contradiction|reflexivity].
Qed.
(** The extension of a name without directory has at most one dot, at its front. *)
Lemma basename_component t : ~ In slash t -> basename t = t.
Proof. intros H. unfold basename. change "/"%char with slash. rewrite rfind_none by exact H. reflexivity. Qed.
Lemma remove_none' fuel pat : forall t, ~ occurs pat t -> remove_all fuel pat t = t.
Proof.
  induction fuel as [|fuel IH]; [reflexivity|]. intros [|c r] H; [reflexivity|]. cbn [remove_all].
  destruct (startswith (c :: r) pat) eqn:E.
  - exfalso. apply H. apply startswith_occ in E. destruct E as (b & E). exists [], b. exact E.
  - f_equal. apply IH. intros (a & b & E0). apply H. exists (c :: a), b. rewrite E0. reflexivity.
Qed.
Lemma remove_front pat t : pat <> [] -> ~ occurs pat t -> str_remove (pat ++ t) pat = t.
Proof.
  intros N H. unfold str_remove. destruct pat as [|c p]; [congruence|]. cbn [List.length app remove_all].
  replace (startswith (c :: p ++ t) (c :: p)) with true by (symmetry; apply startswith_spec; exists t; reflexivity).
  rewrite skipn_cons. rewrite skipn_app, skipn_all, Nat.sub_diag. cbn [skipn app]. apply remove_none'. exact H.
Qed.
Lemma splitext_any t w ext : ~ In slash w -> (exists c, In c w /\ c <> "."%char) -> ~ In "."%char ext -> ~ In slash ext ->
  splitext (t ++ w ++ "."%char :: ext) = (t ++ w, "."%char :: ext).
Proof.
  intros W C E S.
  assert (X : exists q b, t = q ++ b /\ ~ In slash b /\ (q = [] \/ exists q', q = q' ++ [slash])).
  { clear. induction t as [|c t IH] using rev_ind; [exists [], []; split; [reflexivity|split; [intros []|left; reflexivity]]|].
    destruct (ascii_dec c slash) as [->|N]; [exists (t ++ [slash]), []; split; [rewrite app_nil_r; reflexivity|split; [intros []|right; exists t; reflexivity]]|].
    destruct IH as (q & b & -> & B & Q). exists q, (b ++ [c]). split; [rewrite app_assoc; reflexivity|]. split; [|exact Q]. intros I. apply in_app_or in I. destruct I as [I|[I|[]]]; [exact (B I)|exact (N I)]. }
  destruct X as (q & b & -> & B & Q). rewrite <- !app_assoc. rewrite (app_assoc b w). rewrite (splitext_spec q (b ++ w) ext Q); [reflexivity| | |exact E|exact S].
  - intros I. apply in_app_or in I. tauto.
  - destruct C as (c & I & D). exists c. split; [apply in_or_app; right; exact I|exact D].
Qed.
