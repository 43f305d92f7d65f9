(** The command line helpers: theorems. *)
From Verif Require Export SpecCLI PropertiesEvaluator2.
From Coq Require Import Lia ZifyBool ZifyNat Lqa.
Open Scope Z_scope.
Open Scope list_scope.

(** *** strip *)
Lemma lstrip_split t : exists s, spaces s /\ t = s ++ lstrip t.
Proof.
  induction t as [|c t (s & S & E)]; [exists []; split; [constructor|reflexivity]|]. cbn [lstrip]. destruct (is_space c) eqn:C.
  - exists (c :: s). split; [constructor; assumption|]. cbn [app]. congruence.
  - exists []. split; [constructor|reflexivity].
Qed.
Lemma lstrip_head t c r : lstrip t = c :: r -> is_space c = false.
Proof. induction t as [|a t IH]; [discriminate|]. cbn [lstrip]. destruct (is_space a) eqn:A; [exact IH|]. intros E. injection E as -> _. exact A. Qed.
Lemma strip_split t : exists s1 s2, spaces s1 /\ spaces s2 /\ t = s1 ++ strip t ++ s2.
Proof.
  destruct (lstrip_split t) as (s1 & S1 & E1). destruct (lstrip_split (rev (lstrip t))) as (s2 & S2 & E2). exists s1, (rev s2).
  split; [exact S1|]. split; [apply spaces_rev, S2|]. unfold strip, rstrip. rewrite <- rev_app_distr, <- E2, rev_involutive. exact E1.
Qed.
Lemma strip_ends t : (forall c r, strip t = c :: r -> is_space c = false) /\ (forall c r, rev (strip t) = c :: r -> is_space c = false).
Proof.
  split.
  - intros c r E. destruct (lstrip_split (rev (lstrip t))) as (s2 & S2 & E2). unfold strip, rstrip in E. apply (f_equal (@rev ascii)) in E2. rewrite rev_involutive, rev_app_distr, E in E2.
    cbn [app] in E2. apply (lstrip_head t c _ E2).
  - intros c r E. unfold strip, rstrip in E. rewrite rev_involutive in E. apply (lstrip_head _ _ _ E).
Qed.
Lemma strip_idem t : strip (strip t) = strip t.
Proof. destruct (strip_ends t) as [A B]. rewrite <- (strip_pad [] (strip t) [] (Forall_nil _) (Forall_nil _) A B) at 2. cbn [app]. rewrite app_nil_r. reflexivity. Qed.
Lemma py_int_strip t : py_int (strip t) = py_int t.
Proof. unfold py_int. rewrite strip_idem. reflexivity. Qed.

(** *** integers *)
Lemma is_digit_char c : is_digit c = true -> c = digit_char (code c - 48) /\ 0 <= code c - 48 <= 9.
Proof.
  unfold is_digit. intros H. split; [|lia]. apply code_inj. rewrite code_digit by lia. lia.
Qed.
Lemma digitpart_groups t : forall b ds, digitpart b t = (ds, []) ->
  exists first gs, t = map digit_char first ++ List.concat (map (fun g => "_"%char :: map digit_char g) gs) /\ ds = first ++ List.concat gs /\
    is_digits first /\ Forall (fun g => is_digits g /\ g <> []) gs /\ (b = false -> first = [] -> gs = []).
Proof.
  induction t as [|c t IH]; intros b ds E; cbn [digitpart] in E.
  - injection E as <-. exists [], []. repeat split; constructor.
  - destruct (is_digit c) eqn:D.
    + destruct (digitpart true t) as [ds' rest] eqn:E'. injection E as <- ->. destruct (IH true ds' E') as (f & gs & T & Ds & F & G & _).
      destruct (is_digit_char c D) as [C B]. exists (code c - 48 :: f), gs. split; [cbn [map app]; congruence|]. split; [cbn [app]; congruence|]. split; [constructor; assumption|].
      split; [exact G|]. intros _ C'. discriminate.
    + destruct (b && Ascii.eqb c "_") eqn:U; [|discriminate]. apply andb_prop in U. destruct U as [-> U]. apply Ascii.eqb_eq in U. subst c.
      destruct t as [|c' t']; [discriminate|]. destruct (is_digit c') eqn:D'; [|discriminate].
      destruct (IH false ds E) as (f & gs & T & Ds & F & G & K). assert (N : f <> []).
      { intros ->. rewrite (K eq_refl eq_refl) in T. discriminate. }
      exists [], (f :: gs). split; [cbn [map app List.concat]; rewrite T; reflexivity|]. split; [exact Ds|]. split; [constructor|]. split; [constructor; auto|]. discriminate.
Qed.
Lemma join_groups (f : list Z -> text) g gs : join_with "_" (map f (g :: gs)) = f g ++ List.concat (map (fun g => "_"%char :: f g) gs).
Proof.
  revert g. induction gs as [|g' gs IH]; intros g; [cbn; rewrite app_nil_r; reflexivity|].
  change (join_with "_" (map f (g :: g' :: gs))) with (f g ++ "_"%char :: join_with "_" (map f (g' :: gs))). rewrite IH. reflexivity.
Qed.
Lemma digitpart_concat gs : Forall (fun g => is_digits g /\ g <> []) gs -> forall d ds b, 0 <= d <= 9 -> is_digits ds ->
  digitpart b (map digit_char (d :: ds) ++ List.concat (map (fun g => "_"%char :: map digit_char g) gs)) = ((d :: ds) ++ List.concat gs, []).
Proof.
  intros G. induction G as [|g gs [Dg Ng] G IH]; intros d ds b Hd D.
  - cbn [List.concat map]. rewrite !app_nil_r. change (digit_char d :: map digit_char ds) with (map digit_char (d :: ds)).
    rewrite <- (app_nil_r (map digit_char (d :: ds))). apply digitpart_digits; [constructor; assumption|exact I].
  - revert d b Hd. induction D as [|d' ds Hd' D IHd]; intros d b Hd.
    + cbn [map app List.concat]. cbn [digitpart]. rewrite digit_is_digit by exact Hd. destruct g as [|e g]; [congruence|]. inversion Dg as [|? ? He Dg' EE]; subst.
      change (is_digit "_") with false. change (true && Ascii.eqb "_" "_") with true. cbv iota. cbn [map app]. rewrite (digit_is_digit e He).
      assert (H := IH e g false He Dg'). cbn [map app] in H. rewrite H. rewrite code_digit by exact Hd. f_equal. f_equal. lia.
    + cbn [map app digitpart]. rewrite digit_is_digit by exact Hd. assert (H := IHd d' true Hd'). cbn [map app digitpart] in H. rewrite H. rewrite code_digit by exact Hd.
      f_equal. f_equal. lia.
Qed.
Lemma numeral_word sg gs : gs <> [] -> Forall (fun g => is_digits g /\ g <> []) gs -> word (sign_text sg ++ join_with "_" (map (map digit_char) gs)).
Proof.
  intros N F. destruct gs as [|g gs]; [congruence|]. inversion F as [|? ? [Dg Ng] F']; subst. rewrite join_groups. split.
  - destruct g; [congruence|]. destruct sg as [[|]|]; discriminate.
  - apply Forall_app_intro; [destruct sg as [[|]|]; repeat constructor|]. apply Forall_app_intro; [apply digits_word; assumption|].
    clear - F'. induction F' as [|g gs [D N] F IH]; [constructor|]. cbn [map List.concat]. apply Forall_app_intro; [|exact IH]. constructor; [reflexivity|]. apply digits_word; assumption.
Qed.
(** [py_int] is Python's integer syntax. *)
Lemma py_int_spec t v : py_int t = Ok v <-> int_numeral t v.
Proof.
  split.
  - intros E. destruct (strip_split t) as (s1 & s2 & S1 & S2 & T). unfold py_int in E. destruct (take_sign (strip t)) as [neg u] eqn:Es.
    destruct (digitpart false u) as [ds rest] eqn:Ed. destruct ds as [|d ds]; [discriminate|]. destruct rest; [|discriminate]. injection E as <-.
    destruct (digitpart_groups u false _ Ed) as (f & gs & U & Ds & F & G & K). assert (N : f <> []).
    { intros ->. rewrite (K eq_refl eq_refl) in Ds. discriminate. }
    assert (X : exists sg, strip t = sign_text sg ++ u /\ neg = sign_neg sg).
    { clear - Es. unfold take_sign in Es. destruct (strip t) as [|c r]; [injection Es as <- <-; exists None; split; reflexivity|].
      destruct (Ascii.eqb_spec c "-") as [->|]; [injection Es as <- <-; exists (Some true); split; reflexivity|].
      destruct (Ascii.eqb_spec c "+") as [->|]; injection Es as <- <-; [exists (Some false)|exists None]; split; reflexivity. }
    destruct X as (sg & X & ->). exists s1, sg, (f :: gs), s2. split; [exact S1|]. split; [exact S2|]. split; [discriminate|]. split; [constructor; auto|]. split.
    + rewrite join_groups, <- U, (app_assoc (sign_text sg)), <- X. exact T.
    + rewrite Ds. cbn [List.concat]. unfold signed. destruct (sign_neg sg); reflexivity.
  - intros (s1 & sg & gs & s2 & S1 & S2 & N & F & -> & ->). unfold py_int.
    rewrite (app_assoc (sign_text sg)), strip_word by (solve [assumption|apply numeral_word; assumption]).
    destruct gs as [|g gs]; [congruence|]. inversion F as [|? ? [Dg Ng] F']; subst. destruct g as [|d ds]; [congruence|]. inversion Dg as [|? ? Hd Dd]; subst.
    rewrite join_groups. set (body := map digit_char (d :: ds) ++ _).
    assert (Es : take_sign (sign_text sg ++ body) = (sign_neg sg, body)).
    { destruct sg as [[|]|]; [reflexivity|reflexivity|]. apply (take_sign_digits (d :: ds)); [exact Dg|discriminate]. }
    rewrite Es. unfold body. rewrite digitpart_concat by assumption. cbn [app List.concat]. unfold signed. destruct (sign_neg sg); reflexivity.
Qed.

(** *** lists *)
Lemma split_join c items : items <> [] -> Forall (fun i => ~ In c i) items -> split_by (Ascii.eqb c) (join_with c items) = items.
Proof.
  intros N F. assert (K : forall w, ~ In c w -> Forall (fun a => Ascii.eqb c a = false) w).
  { intros w H. apply Forall_forall. intros a I. destruct (Ascii.eqb_spec c a) as [<-|]; [contradiction|reflexivity]. }
  induction F as [|w l H F IH]; [congruence|]. destruct l as [|w' l].
  - apply split_by_none, K, H.
  - change (join_with c (w :: w' :: l)) with (w ++ c :: join_with c (w' :: l)). rewrite split_by_app; [|apply K, H|apply Ascii.eqb_refl]. f_equal. apply IH. discriminate.
Qed.
Lemma split_nonempty p t : split_by p t <> [].
Proof. destruct t as [|c t]; [discriminate|]. cbn [split_by]. destruct (p c); [discriminate|]. destruct (split_by p t); discriminate. Qed.
Lemma join_split c t : join_with c (split_by (Ascii.eqb c) t) = t /\ Forall (fun i => ~ In c i) (split_by (Ascii.eqb c) t).
Proof.
  induction t as [|a t [E F]]; [split; [reflexivity|repeat constructor; intros []]|]. cbn [split_by]. assert (N := split_nonempty (Ascii.eqb c) t).
  destruct (Ascii.eqb_spec c a) as [<-|C].
  - split; [|constructor; [intros []|exact F]]. destruct (split_by (Ascii.eqb c) t); [congruence|]. cbn [join_with app] in *. f_equal. exact E.
  - destruct (split_by (Ascii.eqb c) t) as [|w ws]; [congruence|]. split.
    + destruct ws as [|w' ws]; cbn [join_with app] in *; congruence.
    + inversion F; subst. constructor; [|assumption]. intros [I|I]; [congruence|contradiction].
Qed.
Lemma mapM_F2 {A B} (f : A -> res B) l m : mapM f l = Ok m <-> Forall2 (fun a b => f a = Ok b) l m.
Proof.
  revert m. induction l as [|a l IH]; intros m; cbn [mapM].
  - split; [intros E; injection E as <-; constructor|intros F; inversion F; reflexivity].
  - destruct (f a) as [b|e] eqn:E; cbn [bind]; [|split; [discriminate|intros F; inversion F; congruence]].
    destruct (mapM f l) as [bs|e] eqn:E'; cbn [bind].
    + split; [intros H; injection H as <-; constructor; [exact E|apply IH; reflexivity]|]. intros F. inversion F; subst. f_equal. assert (bs = l'); [|congruence].
      assert (X : Ok bs = Ok l') by (apply IH; assumption). congruence.
    + split; [discriminate|]. intros F. inversion F; subst. assert (X : Err e = Ok l') by (apply IH; assumption). discriminate.
Qed.
Lemma F2_impl {A B} (R S : A -> B -> Prop) l m : (forall a b, R a b -> S a b) -> Forall2 R l m -> Forall2 S l m.
Proof. intros H. induction 1; constructor; auto. Qed.
Lemma bracketed_spec t : bracketed t = true <-> exists u, t = "["%char :: u ++ ["]"%char].
Proof.
  unfold bracketed. split.
  - intros H. apply andb_prop in H. destruct H as [A B]. destruct t as [|c t]; [discriminate|]. cbn [startswith lit list_ascii_of_string] in A.
    apply andb_prop in A. destruct A as [A _]. apply Ascii.eqb_eq in A. subst c. unfold endswith in B. cbn [rev lit list_ascii_of_string app] in B.
    destruct (rev t) as [|c r] eqn:E; [discriminate|]. cbn [app startswith] in B. apply andb_prop in B. destruct B as [B _]. apply Ascii.eqb_eq in B. subst c.
    exists (rev r). f_equal. apply (f_equal (@rev ascii)) in E. rewrite rev_involutive in E. exact E.
  - intros (u & ->). apply andb_true_intro. split; [destruct u; reflexivity|]. unfold endswith. cbn [rev]. rewrite rev_app_distr. cbn [rev app lit list_ascii_of_string startswith].
    destruct (rev u ++ ["["%char]); reflexivity.
Qed.
Lemma inner_eq u : inner ("["%char :: u ++ ["]"%char]) = u.
Proof. unfold inner. cbn [tl]. rewrite removelast_app by discriminate. cbn [removelast]. apply app_nil_r. Qed.
(** A bracketed list is parsed item by item. *)
Lemma bracket_parse {A} (f : text -> res A) t l : (forall i, f (strip i) = f i) ->
  (bracketed (strip t) = true /\ comma_list f (inner (strip t)) = Ok l) <-> exists items, list_text t items /\ Forall2 (fun i a => f i = Ok a) items l.
Proof.
  intros Hf. split.
  - intros [B C]. apply bracketed_spec in B. destruct B as (u & U). rewrite U, inner_eq in C. unfold comma_list in C. apply mapM_F2 in C.
    exists (split_by (Ascii.eqb ",") u). destruct (join_split "," u) as [J N]. split; [|apply (F2_impl _ _ _ _ (fun a b H => eq_trans (eq_sym (Hf a)) H) C)].
    split; [apply split_nonempty|]. split; [exact N|]. destruct (strip_split t) as (s1 & s2 & S1 & S2 & T). exists s1, s2. split; [exact S1|]. split; [exact S2|].
    rewrite J. rewrite U in T. rewrite T. cbn [app]. rewrite <- app_assoc. reflexivity.
  - intros (items & (N & F & s1 & s2 & S1 & S2 & ->) & M).
    assert (E : strip (s1 ++ "["%char :: join_with "," items ++ "]"%char :: s2) = "["%char :: join_with "," items ++ ["]"%char]).
    { change ("]"%char :: s2) with (["]"%char] ++ s2). rewrite app_assoc. rewrite (app_comm_cons _ s2). apply strip_pad; try assumption.
      - intros c r E. injection E as <- _. reflexivity.
      - intros c r E. cbn [rev] in E. rewrite rev_app_distr in E. cbn [rev app] in E. injection E as <- _. reflexivity. }
    rewrite E. split; [apply bracketed_spec; eexists; reflexivity|]. rewrite inner_eq. unfold comma_list. rewrite split_join by assumption. apply mapM_F2.
    apply (F2_impl _ _ _ _ (fun a b H => eq_trans (Hf a) H) M).
Qed.
Lemma bracket_not_int t : bracketed (strip t) = true -> exists e, py_int t = Err e.
Proof.
  intros B. apply bracketed_spec in B. destruct B as (u & U). unfold py_int. rewrite U. cbn. eauto.
Qed.

(** ** C37 *)
(** The categories option is accepted exactly when it denotes an integer or a non-empty bracketed list
    of integers, and then has that value. *)
Theorem cli_categories_parsed : forall n t l, cli_categories n (Some t) = Parsed l <-> categories_text t l.
Proof.
  intros n t l. unfold cli_categories. rewrite py_int_strip. unfold categories_text. split.
  - destruct (py_int t) as [v|e] eqn:E.
    + intros H. injection H as <-. left. exists v. split; [apply py_int_spec, E|reflexivity].
    + destruct (bracketed (strip t)) eqn:B; [|discriminate]. destruct (comma_list py_int (inner (strip t))) as [l'|] eqn:C; [|discriminate]. intros H. injection H as <-.
      right. destruct (proj1 (bracket_parse py_int t l' py_int_strip) (conj B C)) as (items & L & F). exists items. split; [exact L|].
      apply (F2_impl _ _ _ _ (fun a b => proj1 (py_int_spec a b)) F).
  - intros [(v & H & ->)|(items & L & F)].
    + apply py_int_spec in H. rewrite H. reflexivity.
    + assert (F' := F2_impl _ _ _ _ (fun a b => proj2 (py_int_spec a b)) F).
      destruct (proj2 (bracket_parse py_int t l py_int_strip) (ex_intro _ items (conj L F'))) as [B C]. destruct (bracket_not_int t B) as (e & ->). rewrite B, C. reflexivity.
Qed.
Print Assumptions cli_categories_parsed.
Theorem cli_default_categories : forall n c, exists l, cli_categories n None = Parsed l /\ NoDup l /\ (In c l <-> valid_category n c).
Proof.
  intros n c. eexists. split; [reflexivity|]. split.
  - apply FinFun.Injective_map_NoDup; [intros a b; lia|unfold zseq; apply FinFun.Injective_map_NoDup; [intros a b; lia|apply seq_NoDup]].
  - rewrite in_map_iff. unfold valid_category. split; [intros (x & <- & I); unfold zseq in I; apply in_map_iff in I; destruct I as (y & <- & I); apply in_seq in I; lia|]. intros H. exists (c - 1). split; [lia|unfold zseq; apply in_map_iff; exists (Z.to_nat (c - 1)); split; [lia|apply in_seq; lia]].
Qed.
Print Assumptions cli_default_categories.
(** The thresholds option: an integer is a number of thresholds, a bracketed list gives the thresholds
    themselves, everything else is rejected. *)
Lemma py_float_strip t : py_float (strip t) = py_float t.
Proof. unfold py_float. rewrite strip_idem. reflexivity. Qed.
Theorem cli_thresholds_parsed : forall t,
  (forall n, cli_thresholds t = Parsed (TInt n) <-> int_numeral t n) /\
  (forall l, cli_thresholds t = Parsed (TList l) <-> exists items, list_text t items /\ Forall2 (fun i v => py_float i = Ok v) items l).
Proof.
  intros t. unfold cli_thresholds. rewrite py_int_strip. split.
  - intros n. rewrite <- py_int_spec. destruct (py_int t) as [v|e]; [split; congruence|]. split; [|discriminate].
    destruct (bracketed _); [|discriminate]. destruct (comma_list _ _); discriminate.
  - intros l. rewrite <- (bracket_parse py_float t l py_float_strip). destruct (py_int t) as [v|e] eqn:E.
    + split; [discriminate|]. intros [B _]. destruct (bracket_not_int t B) as (e & E'). congruence.
    + destruct (bracketed (strip t)); [|split; [discriminate|intros [C _]; discriminate]].
      destruct (comma_list py_float (inner (strip t))) as [l'|]; [|split; [discriminate|intros [_ C]; discriminate]].
      split; [intros H; injection H as <-; auto|intros [_ H]; congruence].
Qed.
Print Assumptions cli_thresholds_parsed.

(** Decimal fractions are read with their value. *)
Lemma decimal_head ip fp : is_digits ip -> forall rest, take_sign (map digit_char ip ++ "."%char :: map digit_char fp ++ rest) = (false, map digit_char ip ++ "."%char :: map digit_char fp ++ rest).
Proof. intros H rest. destruct ip as [|d ip]; [reflexivity|]. apply take_sign_digits; [exact H|discriminate]. Qed.
Lemma decimal_not_special ip u : is_digits ip -> forall s, (match s with c :: _ => is_digit c = false /\ c <> "."%char | [] => True end) ->
  text_eqb (map lower (map digit_char ip ++ "."%char :: u)) s = false.
Proof.
  intros H s S. destruct ip as [|d ip].
  - unfold text_eqb. destruct (list_eq_dec ascii_dec _ s) as [E|]; [|reflexivity]. exfalso. cbn [map app] in E. subst s. change (lower ".") with "."%char in S. destruct S. congruence.
  - apply not_special; [exact H|discriminate|]. destruct s; [exact I|apply S].
Qed.
Theorem decimal_thresholds_read : forall t q, decimal_numeral t q -> exists r, py_float t = Ok (Fin r) /\ (r == q)%Q.
Proof.
  intros t q (s1 & sg & ip & fp & s2 & S1 & S2 & Hi & Hf & N & -> & Q).
  set (body := map digit_char ip ++ "."%char :: map digit_char fp).
  assert (W : word (sign_text sg ++ body)).
  { split; [destruct sg as [[|]|]; [discriminate|discriminate|]; unfold body; destruct ip; discriminate|].
    assert (D : forall ds, is_digits ds -> Forall (fun c => is_space c = false) (map digit_char ds)).
    { intros ds D. destruct ds as [|d ds]; [constructor|]. apply digits_word; [exact D|discriminate]. }
    apply Forall_app_intro; [destruct sg as [[|]|]; repeat constructor|]. apply Forall_app_intro; [apply D, Hi|]. constructor; [reflexivity|apply D, Hf]. }
  unfold py_float. replace (s1 ++ sign_text sg ++ map digit_char ip ++ "."%char :: map digit_char fp ++ s2) with (s1 ++ (sign_text sg ++ body) ++ s2)
    by (unfold body; rewrite <- !app_assoc; cbn [app]; rewrite <- ?app_assoc; reflexivity).
  rewrite strip_word by assumption. assert (Es : take_sign (sign_text sg ++ body) = (sign_neg sg, body)).
  { destruct sg as [[|]|]; [reflexivity|reflexivity|]. unfold body. cbn [sign_text app sign_neg]. rewrite <- (app_nil_r (map digit_char fp)). apply decimal_head, Hi. }
  rewrite Es. unfold body. rewrite !decimal_not_special by (solve [assumption|exact I|split; [reflexivity|discriminate]]). cbn [orb].
  rewrite digitpart_digits by (solve [assumption|split; [reflexivity|discriminate]]). change (Ascii.eqb "." ".") with true. cbn iota.
  rewrite <- (app_nil_r (map digit_char fp)), digitpart_digits by (solve [assumption|exact I]).
  assert (NE : nonempty (ip ++ fp) = true) by (destruct (ip ++ fp); [congruence|reflexivity]). rewrite NE. cbn [exponent].
  eexists. split; [reflexivity|]. cbv zeta in Q. rewrite Q. rewrite undigits_app. set (L := Z.of_nat (List.length fp)). assert (HL : 0 <= L) by (unfold L; lia).
  assert (P : 0 < 10 ^ L) by (apply Z.pow_pos_nonneg; lia). assert (Pq : ~ (inject_Z (10 ^ L) == 0)%Q) by (intros C; unfold Qeq, inject_Z in C; cbn in C; lia).
  assert (E10 : (pow10 (0 - L) == / inject_Z (10 ^ L))%Q).
  { unfold pow10. destruct (Z.ltb_spec (0 - L) 0); [replace (- (0 - L)) with L by lia; reflexivity|]. assert (Z0 : L = 0) by lia. rewrite Z0. reflexivity. }
  rewrite E10. unfold signed. change (Z.of_nat (Datatypes.length fp)) with L. destruct (sign_neg sg); rewrite ?inject_Z_opp, inject_Z_plus, inject_Z_mult; field; exact Pq.
Qed.
Print Assumptions decimal_thresholds_read.

(** *** what the scripts run *)
Lemma cats_given_spec n arg l : cli_categories n arg = Parsed l <-> cats_given n arg l.
Proof.
  destruct arg as [t|]; [apply cli_categories_parsed|]. cbn. split; congruence.
Qed.
Lemma run_spec n arg ths k j : cli_run n (Z.of_nat n + 1) arg ths k = Ok (Parsed j) <->
  exists cats th, cats_given n arg cats /\ Forall (valid_category n) cats /\ cli_thresholds ths = Parsed th /\ j = k cats th.
Proof.
  unfold cli_run. split.
  - destruct (cli_categories n arg) as [|cats] eqn:E; [discriminate|]. destruct (cats_ok (Z.of_nat n + 1) cats) eqn:V; [|discriminate].
    destruct (cli_thresholds ths) as [|th] eqn:T; [discriminate|]. intros H. injection H as <-. exists cats, th. split; [apply cats_given_spec, E|]. split; [|auto].
    apply Forall_forall. intros c I. unfold cats_ok in V. rewrite forallb_forall in V. specialize (V c I). unfold valid_category. lia.
  - intros (cats & th & G & F & T & ->). apply cats_given_spec in G. rewrite G. assert (V : cats_ok (Z.of_nat n + 1) cats = true).
    { apply forallb_forall. intros c I. rewrite Forall_forall in F. specialize (F c I). unfold valid_category in F. lia. }
    rewrite V, T. reflexivity.
Qed.
Lemma run_error n arg ths k e : cli_run n (Z.of_nat n + 1) arg ths k = Err e <->
  e = AssertionError /\ exists cats c, cats_given n arg cats /\ In c cats /\ ~ valid_category n c.
Proof.
  unfold cli_run. split.
  - destruct (cli_categories n arg) as [|cats] eqn:E; [discriminate|]. destruct (cats_ok (Z.of_nat n + 1) cats) eqn:V.
    + destruct (cli_thresholds ths); discriminate.
    + intros H. split; [congruence|]. exists cats. assert (X : exists c, In c cats /\ (0 <? c) && (c <? Z.of_nat n + 1) = false).
      { clear - V. induction cats as [|c cats IH]; [discriminate|]. cbn [cats_ok forallb] in V. destruct ((0 <? c) && (c <? Z.of_nat n + 1)) eqn:C.
        - destruct (IH V) as (c' & I & C'). exists c'. split; [right; exact I|exact C'].
        - exists c. split; [left; reflexivity|exact C]. }
      destruct X as (c & I & C). exists c. split; [apply cats_given_spec, E|]. split; [exact I|]. unfold valid_category. lia.
  - intros (-> & cats & c & G & I & N). apply cats_given_spec in G. rewrite G. destruct (cats_ok (Z.of_nat n + 1) cats) eqn:V; [|reflexivity].
    exfalso. apply N. unfold cats_ok in V. rewrite forallb_forall in V. specialize (V c I). unfold valid_category. lia.
Qed.
(** A script evaluates exactly when the categories are integers in range and the thresholds can be
    read; it then evaluates these categories with these thresholds.  An out of range category is an
    AssertionError, everything else only prints a message. *)
Theorem scripts_evaluate_what_was_asked : forall o,
  (forall j, cli_sbd o = Ok (Parsed j) -> exists cats, j_cats j = Some cats /\ cats_given 20 (o_categories o) cats /\ Forall (valid_category 20) cats /\ cli_thresholds (o_thresholds o) = Parsed (j_ths j)) /\
  (forall j, cli_city_raw o = Ok (Parsed j) \/ cli_city_thin o = Ok (Parsed j) -> exists cats, j_cats j = Some cats /\ cats_given 19 (o_categories o) cats /\ Forall (valid_category 19) cats /\ cli_thresholds (o_thresholds o) = Parsed (j_ths j)) /\
  (forall j, cli_bsds o = Ok (Parsed j) -> j_cats j = None /\ cli_thresholds (o_thresholds o) = Parsed (j_ths j)).
Proof.
  intros o. split; [|split].
  - intros j H. apply (run_spec 20) in H. destruct H as (cats & th & G & F & T & ->). exists cats. auto.
  - intros j [H|H]; apply (run_spec 19) in H; destruct H as (cats & th & G & F & T & ->); exists cats; auto.
  - intros j. unfold cli_bsds. destruct (cli_thresholds (o_thresholds o)); [discriminate|]. intros H. injection H as <-. auto.
Qed.
Print Assumptions scripts_evaluate_what_was_asked.
Theorem scripts_accept_valid_arguments : forall o th, cli_thresholds (o_thresholds o) = Parsed th ->
  (forall cats, cats_given 20 (o_categories o) cats -> Forall (valid_category 20) cats -> exists j, cli_sbd o = Ok (Parsed j)) /\
  (forall cats, cats_given 19 (o_categories o) cats -> Forall (valid_category 19) cats -> (exists j, cli_city_raw o = Ok (Parsed j)) /\ (exists j, cli_city_thin o = Ok (Parsed j))) /\
  (exists j, cli_bsds o = Ok (Parsed j)).
Proof.
  intros o th T. split; [|split].
  - intros cats G F. eexists. apply (run_spec 20). exists cats, th. repeat split; eauto.
  - intros cats G F. split; eexists; apply (run_spec 19); exists cats, th; repeat split; eauto.
  - unfold cli_bsds. rewrite T. eauto.
Qed.
Print Assumptions scripts_accept_valid_arguments.
Theorem out_of_range_category_rejected : forall o e,
  (cli_sbd o = Err e <-> e = AssertionError /\ exists cats c, cats_given 20 (o_categories o) cats /\ In c cats /\ ~ valid_category 20 c) /\
  (cli_city_raw o = Err e <-> e = AssertionError /\ exists cats c, cats_given 19 (o_categories o) cats /\ In c cats /\ ~ valid_category 19 c) /\
  (cli_city_thin o = Err e <-> e = AssertionError /\ exists cats c, cats_given 19 (o_categories o) cats /\ In c cats /\ ~ valid_category 19 c).
Proof. intros o e. split; [apply (run_error 20)|split; apply (run_error 19)]. Qed.
Print Assumptions out_of_range_category_rejected.

(** The evaluation parameters that result from the flags. *)
Definition job_params (j : job) : res eparams :=
  match set_eval_params (j_kind j) (j_call j) fresh with (Err e, _) => Err e | (Ok _, a) => eval_params (j_kind j) (j_thin j) a end.
(** SBD: always accepted; the tolerance is 0.02 whatever --max-dist says; thinning follows --raw. *)
Theorem sbd_script_parameters : forall o j, cli_sbd o = Ok (Parsed j) ->
  j_kind j = SBD /\ j_thin j = negb (o_raw o) /\
  exists b, b = (o_pre_seal o || o_nonIS o)%bool /\ job_params j = Ok (mkEP 1 (negb (o_raw o)) (o_nms o) (2 # 100) (Some b) (Some b) None).
Proof.
  intros o j H. apply (run_spec 20) in H. destruct H as (cats & th & _ & _ & _ & ->). cbn [j_kind j_thin]. split; [reflexivity|]. split; [reflexivity|].
  eexists. split; [reflexivity|]. unfold job_params. cbn. destruct (o_pre_seal o), (o_nonIS o); reflexivity.
Qed.
Print Assumptions sbd_script_parameters.
(** Cityscapes, raw: --pre-seal needs --nonIS; post-SEAL uses --max-dist; the half resolution evaluator
    ignores --scale. *)
Theorem city_raw_script_parameters : forall o j, cli_city_raw o = Ok (Parsed j) ->
  j_kind j = (if o_half o then Half else City) /\ j_thin j = false /\
  (o_pre_seal o = true /\ o_nonIS o = false \/ o_half o = false /\ ~ (0 < o_scale o <= 1)%Q -> job_params j = Err AssertionError) /\
  (o_pre_seal o = false \/ o_nonIS o = true -> o_half o = true \/ (0 < o_scale o <= 1)%Q ->
   job_params j = Ok (mkEP (if o_half o then 1 else o_scale o) false (o_nms o) (if o_pre_seal o then 2 # 100 else o_max_dist o)
                           (Some (o_nonIS o)) (Some (o_nonIS o)) None)).
Proof.
  intros o j H. apply (run_spec 19) in H. destruct H as (cats & th & _ & _ & _ & ->). cbn [j_kind j_thin]. split; [reflexivity|]. split; [reflexivity|]. split.
  - intros H. assert (N : ~ acceptable (if o_half o then Half else City) (mkCall (mode_of (o_pre_seal o)) (o_scale o) false (o_nms o) (negb (o_nonIS o)) (o_max_dist o) false false)).
    { intros [V M]. destruct H as [[P I]|[Hh S]].
      - apply M. rewrite P, I. destruct (o_half o); auto.
      - rewrite Hh in V. destruct V as [V|V]; [discriminate|]. cbn in V. tauto. }
    unfold job_params. cbn [j_kind j_call j_thin]. assert (E := proj2 (params_accepted _ _ fresh) N). destruct (set_eval_params _ _ _) as [[u|e] a]; cbn [fst] in E; congruence.
  - intros M V. unfold job_params. cbn [j_kind j_call j_thin]. destruct (o_half o).
    + destruct (o_pre_seal o), (o_nonIS o); try reflexivity. destruct M; discriminate.
    + assert (S : scale_ok (o_scale o) = true). { destruct V as [V|V]; [discriminate|]. apply scale_ok_spec, V. }
      cbn [set_eval_params]. unfold city_set. cbn [c_scale]. rewrite S. cbn [negb]. destruct (o_pre_seal o), (o_nonIS o); try reflexivity. destruct M; discriminate.
Qed.
Print Assumptions city_raw_script_parameters.
(** Cityscapes, thin: always the half resolution evaluator with thinning; --scale has no effect. *)
Theorem city_thin_script_parameters : forall o j, cli_city_thin o = Ok (Parsed j) ->
  j_kind j = Half /\ j_thin j = true /\
  (o_pre_seal o = true -> o_nonIS o = false -> job_params j = Err AssertionError) /\
  (o_pre_seal o = false \/ o_nonIS o = true ->
   job_params j = Ok (mkEP 1 true (o_nms o) (if o_pre_seal o then 2 # 100 else o_max_dist o) (Some (o_nonIS o)) (Some (o_nonIS o)) None)).
Proof.
  intros o j H. apply (run_spec 19) in H. destruct H as (cats & th & _ & _ & _ & ->). cbn [j_kind j_thin]. split; [reflexivity|]. split; [reflexivity|].
  unfold job_params. cbn. destruct (o_pre_seal o), (o_nonIS o); split; intros; try discriminate; try reflexivity. destruct H; discriminate.
Qed.
Print Assumptions city_thin_script_parameters.
Theorem bsds_script_parameters : forall o j, cli_bsds o = Ok (Parsed j) ->
  j_kind j = BSDS /\ job_params j = Ok (mkEP 1 (negb (o_raw o)) (o_nms o) (o_max_dist o) None None None).
Proof.
  intros o j. unfold cli_bsds. destruct (cli_thresholds _); [discriminate|]. intros H. injection H as <-. split; reflexivity.
Qed.
Print Assumptions bsds_script_parameters.
(** The re-annotated SBD script fails whatever the arguments. *)
Theorem reanno_script_always_fails : forall o, cli_reanno o = Err TypeError.
Proof. reflexivity. Qed.
Print Assumptions reanno_script_always_fails.
(** No two values of --max-dist make a difference for the SBD script. *)
Theorem sbd_script_respects_max_dist_refuted : ~ (forall o j e, cli_sbd o = Ok (Parsed j) -> job_params j = Ok e -> o_pre_seal o = false -> e_dist e = o_max_dist o).
Proof.
  intros H. specialize (H (mkOpt None (lit "99") (1 # 100) false false false false 1 false 4)). cbn in H.
  specialize (H _ _ eq_refl eq_refl eq_refl). discriminate.
Qed.
Print Assumptions sbd_script_respects_max_dist_refuted.

(** Concrete cases. *)
Example ex_cats : cli_categories 20 (Some (lit " [1, 1_5 ,20]")) = Parsed [1; 15; 20]. Proof. reflexivity. Qed.
Example ex_cats_single : cli_categories 20 (Some (lit " 3 ")) = Parsed [3]. Proof. reflexivity. Qed.
Example ex_cats_empty : cli_categories 20 (Some (lit "[]")) = Printed. Proof. reflexivity. Qed.
Example ex_cats_float : cli_categories 20 (Some (lit "[1.0]")) = Printed. Proof. reflexivity. Qed.
Example ex_th_single_float : cli_thresholds (lit "0.5") = Printed. Proof. reflexivity. Qed.
Example ex_th_one : cli_thresholds (lit "[99]") = Parsed (TList [Fin (inject_Z 99 * 1)%Q]). Proof. reflexivity. Qed.
Example ex_th_list : exists a b, cli_thresholds (lit "[.25, +0.5]") = Parsed (TList [Fin a; Fin b]) /\ (a == 1 # 4)%Q /\ (b == 1 # 2)%Q.
Proof. eexists. eexists. split; [reflexivity|]. split; reflexivity. Qed.
Example ex_sbd_job : exists j, cli_sbd (mkOpt (Some (lit "[20,3]")) (lit "99") (1 # 100) false true false false 1 false 4) = Ok (Parsed j) /\ j_cats j = Some [20; 3] /\ j_ths j = TInt 99.
Proof. eexists. repeat split. Qed.
Example ex_sbd_bad : cli_sbd (mkOpt (Some (lit "[20,21]")) (lit "zzz") (1 # 100) false true false false 1 false 4) = Err AssertionError.
Proof. reflexivity. Qed.
Example ex_city_pre : exists j, cli_city_raw (mkOpt (Some (lit "19")) (lit "99") (1 # 100) true false false false 1 false 4) = Ok (Parsed j) /\ job_params j = Err AssertionError.
Proof. eexists. split; reflexivity. Qed.
