(** C37: what Python reads as a float (thresholds on the command line, numbers in result files). *)
From Verif Require Import SpecFloat PropertiesCLI.
From Coq Require Import Lia ZifyBool ZifyNat Lqa.
Open Scope Z_scope.
Open Scope list_scope.

Definition ascii_all : list ascii := map (fun n => ascii_of_nat n) (seq 0 256).
Lemma in_ascii_all c : In c ascii_all.
Proof. unfold ascii_all. apply in_map_iff. exists (nat_of_ascii c). split; [apply ascii_nat_embedding|]. apply in_seq. pose proof (nat_ascii_bounded c). lia. Qed.
Lemma lower_letter l : In l (lit "naifitye") -> forall c, lower c = l <-> either_case c l.
Proof.
  intros I c. assert (A : forallb (fun l => forallb (fun c => Bool.eqb (Ascii.eqb (lower c) l) (Ascii.eqb c l || (code c + 32 =? code l))) ascii_all) (lit "naifitye") = true) by (vm_compute; reflexivity).
  rewrite forallb_forall in A. specialize (A l I). rewrite forallb_forall in A. specialize (A c (in_ascii_all c)). apply Bool.eqb_prop in A.
  unfold either_case. rewrite <- Ascii.eqb_eq, A, Bool.orb_true_iff, Ascii.eqb_eq, Z.eqb_eq. reflexivity.
Qed.
Lemma lower_word w : Forall (fun l => In l (lit "naifitye")) w -> forall t, map lower t = w <-> Forall2 either_case t w.
Proof.
  induction 1 as [|l w I F IH]; intros [|c t]; cbn [map].
  - split; constructor.
  - split; [discriminate|intros H; inversion H].
  - split; [discriminate|intros H; inversion H].
  - split.
    + intros E. injection E as E1 E2. constructor; [apply (lower_letter l I), E1|apply IH, E2].
    + intros H. inversion H; subst. f_equal; [apply (lower_letter l I); assumption|apply IH; assumption].
Qed.
Lemma nan_word : Forall (fun l => In l (lit "naifitye")) (lit "nan").
Proof. apply Forall_forall. intros l I. cbn in *. intuition. Qed.
Lemma inf_word : Forall (fun l => In l (lit "naifitye")) (lit "inf").
Proof. apply Forall_forall. intros l I. cbn in *. intuition. Qed.
Lemma infinity_word : Forall (fun l => In l (lit "naifitye")) (lit "infinity").
Proof. apply Forall_forall. intros l I. cbn in *. intuition. Qed.
Lemma e_letter c : lower c = "e"%char <-> either_case c "e".
Proof. apply lower_letter. cbn. auto 10. Qed.

(** *** digit groups *)
Lemma digitpart_inv t : forall b ds rest, digitpart b t = (ds, rest) ->
  exists first gs, t = map digit_char first ++ List.concat (map (fun g => "_"%char :: map digit_char g) gs) ++ rest /\ ds = first ++ List.concat gs /\
    is_digits first /\ groups gs /\ (b = false -> first = [] -> gs = []).
Proof.
  induction t as [|c t IH]; intros b ds rest E; cbn [digitpart] in E.
  - injection E as <- <-. exists [], []. repeat split; constructor.
  - destruct (is_digit c) eqn:D.
    + destruct (digitpart true t) as [ds' rest'] eqn:E'. injection E as <- ->. destruct (IH true ds' rest E') as (f & gs & T & Ds & F & G & _).
      destruct (is_digit_char c D) as [C B]. exists (code c - 48 :: f), gs. split; [cbn [map app]; congruence|]. split; [cbn [app]; congruence|]. split; [constructor; assumption|].
      split; [exact G|]. intros _ C'. discriminate.
    + destruct (b && Ascii.eqb c "_") eqn:U; [|injection E as <- <-; exists [], []; repeat split; constructor].
      apply andb_prop in U. destruct U as [-> U]. apply Ascii.eqb_eq in U. subst c.
      destruct t as [|c' t']; [injection E as <- <-; exists [], []; repeat split; constructor|]. destruct (is_digit c') eqn:D'; [|injection E as <- <-; exists [], []; repeat split; constructor].
      destruct (IH false ds rest E) as (f & gs & T & Ds & F & G & K). assert (N : f <> []).
      { intros ->. rewrite (K eq_refl eq_refl) in T. cbn [map app List.concat] in T. cbn [digitpart] in E. rewrite D' in E. destruct (digitpart true t') as [x y] eqn:E'.
        injection E as <- <-. rewrite (K eq_refl eq_refl) in Ds. discriminate Ds. }
      exists [], (f :: gs). split; [cbn [map app List.concat]; rewrite T, <- !app_assoc; reflexivity|]. split; [exact Ds|]. split; [constructor|]. split; [constructor; auto|]. discriminate.
Qed.
Lemma digitpart_groups_inv t ds rest : digitpart false t = (ds, rest) -> exists gs, groups gs /\ t = groups_text gs ++ rest /\ ds = List.concat gs.
Proof.
  intros E. destruct (digitpart_inv t false ds rest E) as (f & gs & T & Ds & F & G & K). destruct f as [|d f].
  - rewrite (K eq_refl eq_refl) in *. exists []. split; [constructor|]. split; [exact T|exact Ds].
  - exists ((d :: f) :: gs). split; [constructor; [split; [exact F|discriminate]|exact G]|]. unfold groups_text. rewrite join_groups, <- app_assoc. split; [exact T|exact Ds].
Qed.
Lemma digitpart_groups_text gs rest : groups gs -> stops rest -> digitpart false (groups_text gs ++ rest) = (List.concat gs, rest).
Proof.
  intros G S. destruct gs as [|g gs].
  - cbn [groups_text map join_with app List.concat]. unfold stops in S. destruct rest as [|c r]; [reflexivity|]. cbn [digitpart]. destruct S as [S _]. rewrite S. reflexivity.
  - unfold groups_text. rewrite join_groups. inversion G as [|? ? [Dg Ng] G']; subst. clear G. destruct g as [|d ds]; [congruence|]. inversion Dg as [|? ? Hd Dd]; subst. clear Ng Dg.
    assert (X : forall d ds b, 0 <= d <= 9 -> is_digits ds -> digitpart b (map digit_char (d :: ds) ++ List.concat (map (fun g => "_"%char :: map digit_char g) gs) ++ rest) = ((d :: ds) ++ List.concat gs, rest)).
    2:{ rewrite <- app_assoc. apply X; assumption. }
    clear d ds Hd Dd. induction G' as [|g gs [Dg Ng] G IH]; intros d ds b Hd D.
    + cbn [List.concat map app]. rewrite app_nil_r. change (digit_char d :: map digit_char ds ++ rest) with (map digit_char (d :: ds) ++ rest). apply digitpart_digits; [constructor; assumption|exact S].
    + revert d b Hd. induction D as [|d' ds Hd' D IHd]; intros d b Hd.
      * cbn [map app List.concat]. cbn [digitpart]. rewrite digit_is_digit by exact Hd. destruct g as [|e g]; [congruence|]. inversion Dg as [|? ? He Dg' EE]; subst.
        change (is_digit "_") with false. change (true && Ascii.eqb "_" "_") with true. cbv iota. cbn [map app]. rewrite (digit_is_digit e He).
        assert (H := IH e g false He Dg'). cbn [map app] in H. rewrite <- !app_assoc. rewrite H. rewrite code_digit by exact Hd. f_equal. f_equal. lia.
      * cbn [map app digitpart]. rewrite digit_is_digit by exact Hd. assert (H := IHd d' true Hd'). cbn [map app digitpart] in H. rewrite H. rewrite code_digit by exact Hd.
        f_equal. f_equal. lia.
Qed.
Lemma take_sign_inv t neg u : take_sign t = (neg, u) -> exists sg, t = sign_text sg ++ u /\ neg = sign_neg sg.
Proof.
  unfold take_sign. intros Es. destruct t as [|c r]; [injection Es as <- <-; exists None; split; reflexivity|].
  destruct (Ascii.eqb_spec c "-") as [->|]; [injection Es as <- <-; exists (Some true); split; reflexivity|].
  destruct (Ascii.eqb_spec c "+") as [->|]; injection Es as <- <-; [exists (Some false)|exists None]; split; reflexivity.
Qed.
Definition unsigned (t : text) : Prop := match t with c :: _ => c <> "-"%char /\ c <> "+"%char | [] => True end.
Lemma take_sign_text sg t : unsigned t -> take_sign (sign_text sg ++ t) = (sign_neg sg, t).
Proof.
  intros U. destruct sg as [[|]|]; [reflexivity|reflexivity|]. cbn [sign_text app sign_neg]. destruct t as [|c t]; [reflexivity|]. destruct U as [A B]. unfold take_sign.
  destruct (Ascii.eqb_spec c "-") as [->|]; [congruence|]. destruct (Ascii.eqb_spec c "+") as [->|]; [congruence|reflexivity].
Qed.
Lemma digit_facts d : 0 <= d <= 9 -> digit_char d <> "-"%char /\ digit_char d <> "+"%char /\ is_space (digit_char d) = false /\ digit_char d <> "."%char.
Proof.
  intros H. split; [|split; [|split; [apply digit_not_space, H|]]]; intros E; apply (f_equal code) in E; rewrite code_digit in E by exact H; vm_compute (code _) in E; lia.
Qed.
Lemma groups_head gs : groups gs -> gs <> [] -> exists d r, 0 <= d <= 9 /\ groups_text gs = digit_char d :: r.
Proof.
  intros G N. destruct gs as [|g gs]; [congruence|]. inversion G as [|? ? [Dg Ng] G']; subst. destruct g as [|d ds]; [congruence|]. inversion Dg; subst.
  unfold groups_text. rewrite join_groups. exists d. eexists. split; [assumption|]. reflexivity.
Qed.
Lemma groups_unspaced gs : groups gs -> Forall (fun c => is_space c = false) (groups_text gs).
Proof.
  intros G. destruct gs as [|g gs]; [constructor|]. unfold groups_text. rewrite join_groups. inversion G as [|? ? [Dg Ng] G']; subst. apply Forall_app_intro; [apply digits_word; assumption|].
  clear - G'. induction G' as [|g gs [D N] F IH]; [constructor|]. cbn [map List.concat]. apply Forall_app_intro; [|exact IH]. constructor; [reflexivity|]. apply digits_word; assumption.
Qed.

(** *** exponents *)
Lemma exponent_inv t n : exponent t = Some n -> exponent_text t n.
Proof.
  destruct t as [|c r]; [intros E; left; split; [reflexivity|]; cbn in E; congruence|]. cbn [exponent].
  destruct (Ascii.eqb_spec (lower c) "e") as [L|]; [|discriminate]. destruct (take_sign r) as [neg u] eqn:Es. destruct (digitpart false u) as [ds rest] eqn:Ed.
  destruct ds as [|d ds]; [discriminate|]. destruct rest; [|discriminate]. intros E. injection E as <-. right.
  destruct (take_sign_inv _ _ _ Es) as (sg & -> & ->). destruct (digitpart_groups_inv _ _ _ Ed) as (gs & G & U & D). exists c, sg, gs. split; [apply e_letter, L|]. split; [exact G|].
  split; [intros ->; discriminate|]. rewrite U, app_nil_r. split; [reflexivity|]. rewrite D. reflexivity.
Qed.
Lemma exponent_of_text t n : exponent_text t n -> exponent t = Some n.
Proof.
  intros [(-> & ->)|(c & sg & gs & C & G & N & -> & ->)]; [reflexivity|]. cbn [exponent]. apply e_letter in C. rewrite C. change (Ascii.eqb "e" "e") with true. cbv iota.
  destruct (groups_head gs G N) as (d & r & Hd & Hr). destruct (digit_facts d Hd) as (F1 & F2 & _).
  rewrite take_sign_text by (rewrite Hr; split; assumption). assert (D := digitpart_groups_text gs [] G I). rewrite app_nil_r in D. rewrite D.
  assert (Ne : List.concat gs <> []) by (destruct gs as [|g gs]; [congruence|]; inversion G as [|? ? [_ Ng] _]; subst; destruct g; [congruence|discriminate]).
  destruct (List.concat gs); [congruence|]. unfold signed. reflexivity.
Qed.
Lemma exponent_stops t n : exponent_text t n -> stops t /\ match t with c :: _ => c <> "."%char | [] => True end /\ Forall (fun c => is_space c = false) t.
Proof.
  intros [(-> & _)|(c & sg & gs & C & G & N & -> & _)]; [split; [exact I|split; [exact I|constructor]]|].
  assert (X : c = "e"%char \/ c = "E"%char) by (destruct C as [->|C]; [left; reflexivity|right; apply code_inj; vm_compute (code "e") in C; vm_compute (code "E"); lia]).
  assert (Y : is_digit c = false /\ c <> "_"%char /\ c <> "."%char /\ is_space c = false) by (destruct X as [-> | ->]; repeat split; discriminate).
  destruct Y as (Y1 & Y2 & Y3 & Y4). split; [split; assumption|]. split; [exact Y3|]. constructor; [exact Y4|]. apply Forall_app_intro; [destruct sg as [[|]|]; repeat constructor|]. apply groups_unspaced, G.
Qed.

(** *** values *)
Lemma ten_to_pow10 n : (ten_to n == pow10 n)%Q.
Proof. unfold ten_to, pow10. destruct (n <? 0); [|reflexivity]. unfold Qdiv. rewrite Qmult_1_l. reflexivity. Qed.
Lemma inject_pow a : 0 <= a -> (0 < inject_Z (10 ^ a))%Q.
Proof. intros H. change 0%Q with (inject_Z 0). rewrite <- Zlt_Qlt. apply Z.pow_pos_nonneg; lia. Qed.
Lemma ten_to_plus a b : (ten_to (a - b) * ten_to b == ten_to a)%Q.
Proof.
  rewrite !ten_to_pow10. unfold pow10. 
  assert (P : forall a b, 0 <= a -> 0 <= b -> (inject_Z (10 ^ (a + b)) == inject_Z (10 ^ a) * inject_Z (10 ^ b))%Q) by (intros; rewrite Z.pow_add_r, inject_Z_mult by assumption; reflexivity).
  destruct (Z.ltb_spec (a - b) 0), (Z.ltb_spec b 0), (Z.ltb_spec a 0); try lia.
  - (* a-b<0, b<0, a<0 *) replace (- a) with (- (a - b) + - b) by lia. rewrite P by lia. assert (X := inject_pow (- (a - b)) ltac:(lia)). assert (Y := inject_pow (- b) ltac:(lia)). field. split; intros C; rewrite C in *; eapply Qlt_irrefl; eassumption.
  - (* b>=0, a<0 *) replace (- (a - b)) with (- a + b) by lia. rewrite P by lia. assert (X := inject_pow (- a) ltac:(lia)). assert (Y := inject_pow b ltac:(lia)). field. split; intros C; rewrite C in *; eapply Qlt_irrefl; eassumption.
  - replace b with (- (a - b) + a) at 2 by lia. rewrite P by lia. assert (X := inject_pow (- (a - b)) ltac:(lia)). field. intros C; rewrite C in *; eapply Qlt_irrefl; eassumption.
  - replace (- b) with ((a - b) + - a) by lia. rewrite P by lia. assert (X := inject_pow (a - b) ltac:(lia)). assert (Y := inject_pow (- a) ltac:(lia)). field. split; intros C; rewrite C in *; eapply Qlt_irrefl; eassumption.
  - replace (a - b) with (a + - b) by lia. rewrite P by lia. assert (X := inject_pow (- b) ltac:(lia)). field. intros C; rewrite C in *; eapply Qlt_irrefl; eassumption.
  - rewrite <- P by lia. replace (a - b + b) with a by lia. reflexivity.
Qed.
Lemma number_value ip fp n : is_digits fp ->
  (inject_Z (undigits (ip ++ fp)) * pow10 (n - Z.of_nat (List.length fp)) == (inject_Z (undigits ip) + inject_Z (undigits fp) / ten_to (Z.of_nat (List.length fp))) * ten_to n)%Q.
Proof.
  intros D. rewrite undigits_app. set (L := Z.of_nat (List.length fp)). assert (HL : 0 <= L) by (unfold L; lia). rewrite <- ten_to_pow10.
  assert (E := ten_to_plus n L). assert (P : (0 < ten_to L)%Q) by (unfold ten_to; destruct (Z.ltb_spec L 0); [lia|apply inject_pow; exact HL]).
  assert (T : (ten_to L == inject_Z (10 ^ L))%Q) by (unfold ten_to; destruct (Z.ltb_spec L 0); [lia|reflexivity]).
  change (Z.of_nat (Datatypes.length fp)) with L. rewrite inject_Z_plus, inject_Z_mult, <- T, <- E. field. intros C. rewrite C in P. eapply Qlt_irrefl; eassumption.
Qed.

(** *** C37: a text is read as a float exactly when it is a literal, with its value; every other text is
    refused with a ValueError. *)
Lemma number_head t q : number_text t q -> exists c r, t = c :: r /\ c <> "-"%char /\ c <> "+"%char /\ is_space c = false /\ (c = "."%char \/ is_digit c = true) /\ Forall (fun c => is_space c = false) t.
Proof.
  intros (ip & fp & point & e & n & Gi & Gf & N & Ex & Pt & -> & _). destruct (exponent_stops e n Ex) as (_ & _ & Fe).
  assert (W : Forall (fun c => is_space c = false) (groups_text ip ++ point ++ groups_text fp ++ e)).
  { apply Forall_app_intro; [apply groups_unspaced, Gi|]. apply Forall_app_intro; [destruct Pt as [(-> & _)| ->]; repeat constructor|]. apply Forall_app_intro; [apply groups_unspaced, Gf|exact Fe]. }
  destruct ip as [|g ip].
  - destruct Pt as [(-> & ->)| ->]; [exfalso; apply N; reflexivity|]. exists "."%char. eexists. split; [reflexivity|]. split; [discriminate|]. split; [discriminate|]. split; [reflexivity|]. split; [left; reflexivity|exact W].
  - destruct (groups_head (g :: ip) Gi ltac:(discriminate)) as (d & r & Hd & E). rewrite E in *. destruct (digit_facts d Hd) as (F1 & F2 & F3 & _). cbn [app] in *.
    exists (digit_char d). eexists. split; [reflexivity|]. split; [exact F1|]. split; [exact F2|]. split; [exact F3|]. split; [right; apply digit_is_digit, Hd|exact W].
Qed.
Lemma not_letters t c r s : t = c :: r -> (c = "."%char \/ is_digit c = true) -> (match s with a :: _ => is_digit a = false /\ a <> "."%char | [] => True end) -> text_eqb (map lower t) s = false.
Proof.
  intros -> H S. unfold text_eqb. destruct (list_eq_dec ascii_dec _ s) as [E|]; [|reflexivity]. exfalso. cbn [map] in E. subst s. cbv beta iota in S. destruct S as [S1 S2].
  assert (L : lower c = c). { unfold lower. destruct H as [-> |H]; [reflexivity|]. unfold is_digit in H. cbv zeta in *. destruct ((65 <=? code c) && (code c <=? 90)) eqn:E0; [exfalso; clear S1 S2; lia|reflexivity]. }
  rewrite L in *. destruct H; congruence.
Qed.
Lemma py_float_ok t v : py_float t = Ok v -> float_text t v.
Proof.
  intros E. destruct (strip_split t) as (s1 & s2 & S1 & S2 & T). unfold py_float in E. destruct (take_sign (strip t)) as [neg u] eqn:Es.
  destruct (take_sign_inv _ _ _ Es) as (sg & X & ->). exists s1, sg, u, s2. split; [exact S1|]. split; [exact S2|]. split; [rewrite (app_assoc (sign_text sg)), <- X; exact T|].
  destruct (text_eqb (map lower u) (lit "nan")) eqn:E1; [injection E as <-; apply text_eqb_spec in E1; apply (lower_word _ nan_word), E1|].
  destruct (text_eqb (map lower u) (lit "inf") || text_eqb (map lower u) (lit "infinity")) eqn:E2.
  { injection E as <-. split; [|reflexivity]. apply Bool.orb_true_iff in E2. destruct E2 as [E2|E2]; apply text_eqb_spec in E2; [left; apply (lower_word _ inf_word), E2|right; apply (lower_word _ infinity_word), E2]. }
  destruct (digitpart false u) as [ip t1] eqn:Ei. destruct (digitpart_groups_inv _ _ _ Ei) as (gi & Gi & U & ->).
  assert (Y : exists point gf e, (point = [] /\ gf = [] \/ point = ["."%char]) /\ groups gf /\ t1 = point ++ groups_text gf ++ e /\
    match t1 with c :: r => if Ascii.eqb c "." then digitpart false r else ([], t1) | [] => ([], t1) end = (List.concat gf, e)).
  { destruct t1 as [|c r]; [exists [], [], []; split; [left; split; reflexivity|]; split; [constructor|]; split; reflexivity|].
    destruct (Ascii.eqb_spec c ".") as [->|].
    - destruct (digitpart false r) as [fp e] eqn:Ef. destruct (digitpart_groups_inv _ _ _ Ef) as (gf & Gf & R & ->). exists ["."%char], gf, e. split; [right; reflexivity|]. split; [exact Gf|]. split; [rewrite R; reflexivity|reflexivity].
    - exists [], [], (c :: r). split; [left; split; reflexivity|]. split; [constructor|]. split; reflexivity. }
  destruct Y as (point & gf & e & Pt & Gf & T1 & Em). rewrite Em in E. destruct (nonempty (List.concat gi ++ List.concat gf)) eqn:N; [|discriminate].
  destruct (exponent e) as [n|] eqn:Ex; [|discriminate]. injection E as <-. eexists. split.
  - exists gi, gf, point, e, n. split; [exact Gi|]. split; [exact Gf|]. split; [intros C; destruct gi; [|discriminate]; destruct gf; [|discriminate]; discriminate|].
    split; [apply exponent_inv, Ex|]. split; [exact Pt|]. split; [congruence|reflexivity].
  - assert (D : is_digits (List.concat gf)) by (clear - Gf; induction Gf as [|g gs [D _] F IH]; [constructor|apply Forall_app_intro; assumption]).
    unfold signed. destruct (sign_neg sg); rewrite <- (number_value (List.concat gi) _ n D), ?inject_Z_opp; ring.
Qed.
Theorem float_literals : forall t v, (exists w, py_float t = Ok w /\ same_float w v) <-> float_text t v.
Proof.
  intros t v. split.
  - intros (w & E & S). apply py_float_ok in E. destruct E as (s1 & sg & body & s2 & S1 & S2 & T & B). exists s1, sg, body, s2. split; [exact S1|]. split; [exact S2|]. split; [exact T|].
    destruct w, v; cbn [same_float] in S; try contradiction; [destruct B as (a & Na & Q); exists a; split; [exact Na|rewrite <- S; exact Q]|subst; exact B|exact B].
  - intros (s1 & sg & body & s2 & S1 & S2 & -> & B).
    assert (Word : forall w, Forall (fun l => In l (lit "naifitye")) w -> w <> [] -> map lower body = w -> unsigned body /\ word (sign_text sg ++ body)).
    { intros w Hw Nw E. assert (X : Forall (fun c => c <> "-"%char /\ c <> "+"%char /\ is_space c = false) body).
      { assert (A : forallb (fun c => negb (existsb (Ascii.eqb (lower c)) (lit "naifitye")) || (negb (Ascii.eqb c "-") && negb (Ascii.eqb c "+") && negb (is_space c))) ascii_all = true) by (vm_compute; reflexivity).
        rewrite forallb_forall in A. apply Forall_forall. intros c I. specialize (A c (in_ascii_all c)). assert (L : In (lower c) w) by (rewrite <- E; apply in_map, I). rewrite Forall_forall in Hw. specialize (Hw _ L).
        assert (Y : existsb (Ascii.eqb (lower c)) (lit "naifitye") = true) by (apply existsb_exists; exists (lower c); split; [exact Hw|apply Ascii.eqb_refl]). rewrite Y in A. cbn [negb orb] in A.
        apply andb_prop in A. destruct A as [A A3]. apply andb_prop in A. destruct A as [A1 A2]. split; [intros ->; discriminate|]. split; [intros ->; discriminate|]. destruct (is_space c); [discriminate|reflexivity]. }
      split; [destruct body as [|c r]; [exact I|]; inversion X as [|? ? (X1 & X2 & _) _]; subst; split; assumption|]. split.
      - destruct body; [cbn in E; congruence|]. destruct sg as [[|]|]; discriminate.
      - apply Forall_app_intro; [destruct sg as [[|]|]; repeat constructor|]. eapply Forall_impl; [|exact X]. intros c (_ & _ & Sp). exact Sp. }
    unfold py_float. rewrite (app_assoc (sign_text sg)). destruct v as [q|neg|].
    + destruct B as (a & Na & Qa). destruct (number_head _ _ Na) as (c & r & Eb & N1 & N2 & Sp & Hc & Fb).
      rewrite strip_word; [|assumption|assumption|split; [rewrite Eb; destruct sg as [[|]|]; discriminate|apply Forall_app_intro; [destruct sg as [[|]|]; repeat constructor|exact Fb]]].
      rewrite take_sign_text by (rewrite Eb; split; assumption).
      rewrite !(not_letters body c r) by (solve [assumption|split; [reflexivity|discriminate]]). cbn [orb].
      destruct Na as (ip & fp & point & e & n & Gi & Gf & N & Ex & Pt & Bd & Q). destruct (exponent_stops e n Ex) as (St & Dot & _). rewrite Bd.
      assert (Sp2 : stops (point ++ groups_text fp ++ e)) by (destruct Pt as [(-> & ->)| ->]; [exact St|split; [reflexivity|discriminate]]).
      rewrite digitpart_groups_text by assumption.
      assert (Em : match point ++ groups_text fp ++ e with c :: r => if Ascii.eqb c "." then digitpart false r else ([], point ++ groups_text fp ++ e) | [] => ([], point ++ groups_text fp ++ e) end = (List.concat fp, e)).
      { destruct Pt as [(-> & ->)| ->].
        - cbn [app groups_text map join_with List.concat]. destruct e as [|c0 e]; [reflexivity|]. destruct (Ascii.eqb_spec c0 ".") as [->|]; [congruence|reflexivity].
        - cbn [app]. change (Ascii.eqb "." ".") with true. cbv iota. apply digitpart_groups_text; assumption. }
      cbv beta iota zeta. match type of Em with ?M = _ => match goal with |- context [match ?G with pair _ _ => _ end] => change G with M end end. rewrite Em. cbv beta iota zeta. assert (Ne : nonempty (List.concat ip ++ List.concat fp) = true).
      { destruct ip as [|g ip]; [|inversion Gi as [|? ? [_ Ng] _]; subst; destruct g; [congruence|reflexivity]]. destruct fp as [|g fp]; [exfalso; apply N; reflexivity|inversion Gf as [|? ? [_ Ng] _]; subst; destruct g; [congruence|reflexivity]]. }
      rewrite Ne, (exponent_of_text e n Ex). eexists. split; [reflexivity|]. cbn [same_float].
      assert (D : is_digits (List.concat fp)) by (clear - Gf; induction Gf as [|g gs [D _] F IH]; [constructor|apply Forall_app_intro; assumption]).
      rewrite Qa. unfold signed. destruct (sign_neg sg); rewrite Q, <- (number_value (List.concat ip) _ n D), ?inject_Z_opp; ring.
    + destruct B as [B ->]. assert (L : map lower body = lit "inf" \/ map lower body = lit "infinity") by (destruct B as [B|B]; [left; apply (lower_word _ inf_word), B|right; apply (lower_word _ infinity_word), B]).
      destruct L as [L|L]; [destruct (Word _ inf_word ltac:(discriminate) L) as [U W]|destruct (Word _ infinity_word ltac:(discriminate) L) as [U W]];
        rewrite strip_word, take_sign_text, L by assumption; exists (Inf (sign_neg sg)); split; reflexivity.
    + apply (lower_word _ nan_word) in B. destruct (Word _ nan_word ltac:(discriminate) B) as [U W]. rewrite strip_word, take_sign_text, B by assumption. exists NaN. split; reflexivity.
Qed.
Print Assumptions float_literals.
Theorem other_texts_are_not_floats : forall t, (forall v, ~ float_text t v) -> py_float t = Err ValueError.
Proof.
  intros t H. destruct (py_float t) as [w|e] eqn:E; [exfalso; apply (H w), py_float_ok, E|].
  unfold py_float in E. destruct (take_sign (strip t)) as [neg u]. destruct (text_eqb _ _); [discriminate|]. destruct (_ || _); [discriminate|]. destruct (digitpart false u) as [ip t1].
  destruct (match t1 with c :: r => if Ascii.eqb c "." then digitpart false r else ([], t1) | [] => ([], t1) end) as [fp t2].
  destruct (nonempty (ip ++ fp)); [destruct (exponent t2)|]; congruence.
Qed.
Print Assumptions other_texts_are_not_floats.
(** A threshold list on the command line. *)
Theorem threshold_list_literals : forall t l, cli_thresholds t = Parsed (TList l) -> exists items, list_text t items /\ Forall2 float_text items l.
Proof.
  intros t l E. apply cli_thresholds_parsed in E. destruct E as (items & L & F). exists items. split; [exact L|]. eapply F2_impl; [|exact F]. intros i v. apply py_float_ok.
Qed.
Print Assumptions threshold_list_literals.
Example ex_float_literals : float_text (lit " -1_0.5e-1 ") (Fin (- (105 # 100))) /\ float_text (lit "+Infinity") (Inf false) /\ float_text (lit ".5") (Fin (1 # 2)) /\ py_float (lit "1_") = Err ValueError.
Proof.
  split; [apply float_literals; eexists; split; [vm_compute; reflexivity|vm_compute; reflexivity]|]. split; [apply float_literals; eexists; split; vm_compute; reflexivity|].
  split; [apply float_literals; eexists; split; [vm_compute; reflexivity|vm_compute; reflexivity]|reflexivity].
Qed.
