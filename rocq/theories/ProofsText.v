(** Lemmas about strings, numerals and their formatting. *)
From Verif Require Export ModelText ProofsDec.
From Coq Require Import Lia ZifyBool ZifyNat Lqa.
Open Scope Z_scope.
Open Scope list_scope.

Definition spaces (t : text) : Prop := Forall (fun c => is_space c = true) t.
(** A word: not empty, no white space. *)
Definition word (t : text) : Prop := t <> [] /\ Forall (fun c => is_space c = false) t.

(** *** strip *)
Lemma lstrip_spaces s t : spaces s -> lstrip (s ++ t) = lstrip t.
Proof. induction 1; [reflexivity|]. cbn [app lstrip]. rewrite H. assumption. Qed.
Lemma lstrip_id t : (forall c r, t = c :: r -> is_space c = false) -> lstrip t = t.
Proof. destruct t as [|c r]; [reflexivity|]. intros H. cbn [lstrip]. rewrite (H c r eq_refl). reflexivity. Qed.
Lemma spaces_rev s : spaces s -> spaces (rev s).
Proof. intros H. apply Forall_rev, H. Qed.
Lemma strip_pad s1 t s2 : spaces s1 -> spaces s2 ->
  (forall c r, t = c :: r -> is_space c = false) -> (forall c r, rev t = c :: r -> is_space c = false) ->
  strip (s1 ++ t ++ s2) = t.
Proof.
  intros A B H1 H2. unfold strip, rstrip. rewrite lstrip_spaces by exact A. destruct t as [|c r].
  - cbn [app]. replace (lstrip s2) with (@nil ascii); [reflexivity|]. rewrite <- (app_nil_r s2), lstrip_spaces by exact B. reflexivity.
  - rewrite (lstrip_id ((c :: r) ++ s2)) by (intros c' r' E; injection E as <- <-; apply (H1 c r eq_refl)).
    rewrite rev_app_distr, lstrip_spaces by (apply spaces_rev, B). rewrite lstrip_id by exact H2. apply rev_involutive.
Qed.
Lemma word_ends t : word t -> (forall c r, t = c :: r -> is_space c = false) /\ (forall c r, rev t = c :: r -> is_space c = false).
Proof.
  intros [_ F]. split; intros c r E.
  - subst. inversion F; assumption.
  - apply Forall_rev in F. rewrite E in F. inversion F; assumption.
Qed.
Lemma strip_word s1 t s2 : spaces s1 -> spaces s2 -> word t -> strip (s1 ++ t ++ s2) = t.
Proof. intros A B W. destruct (word_ends t W). apply strip_pad; assumption. Qed.
Lemma strip_word_id t : word t -> strip t = t.
Proof. intros W. rewrite <- (strip_word [] t [] (Forall_nil _) (Forall_nil _) W) at 2. cbn [app]. rewrite app_nil_r. reflexivity. Qed.

(** *** characters *)
Lemma code_chr n : 0 <= n < 256 -> code (chr n) = n.
Proof.
  intros H. unfold code, chr. rewrite N_ascii_embedding; [lia|]. lia.
Qed.
Lemma code_digit d : 0 <= d <= 9 -> code (digit_char d) = 48 + d.
Proof. intros H. apply code_chr. lia. Qed.
Lemma digit_is_digit d : 0 <= d <= 9 -> is_digit (digit_char d) = true.
Proof. intros H. unfold is_digit. rewrite code_digit by exact H. lia. Qed.
Lemma digit_not_space d : 0 <= d <= 9 -> is_space (digit_char d) = false.
Proof. intros H. unfold is_space. rewrite code_digit by exact H. lia. Qed.
Lemma code_inj a b : code a = code b -> a = b.
Proof. unfold code. intros H. rewrite <- (ascii_N_embedding a), <- (ascii_N_embedding b). f_equal. lia. Qed.
Lemma digit_neq d c : 0 <= d <= 9 -> is_digit c = false -> Ascii.eqb (digit_char d) c = false.
Proof.
  intros H N. destruct (Ascii.eqb_spec (digit_char d) c) as [E|]; [|reflexivity]. subst c. rewrite digit_is_digit in N by exact H. discriminate.
Qed.

(** *** digits *)
Lemma digits_word ds : is_digits ds -> ds <> [] -> word (map digit_char ds).
Proof.
  intros H N. split; [destruct ds; [congruence|discriminate]|]. apply Forall_forall. intros c I. apply in_map_iff in I. destruct I as (d & <- & I).
  apply digit_not_space. revert d I. apply Forall_forall, H.
Qed.
Definition stops (t : text) : Prop := match t with [] => True | c :: _ => is_digit c = false /\ c <> "_"%char end.
Lemma digitpart_digits ds : is_digits ds -> forall b rest, stops rest -> digitpart b (map digit_char ds ++ rest) = (ds, rest).
Proof.
  induction 1 as [|d ds Hd H IH]; intros b rest S; cbn [map app].
  - destruct rest as [|c r]; [reflexivity|]. destruct S as [S1 S2]. cbn [digitpart]. rewrite S1. destruct (Ascii.eqb_spec c "_"); [contradiction|].
    rewrite andb_false_r. reflexivity.
  - cbn [digitpart]. rewrite digit_is_digit by exact Hd. rewrite IH by exact S. rewrite code_digit by exact Hd. f_equal. f_equal. lia.
Qed.
Lemma str_nat_word n : 0 <= n -> word (str_nat n).
Proof. intros H. apply digits_word; [apply digits_are_digits, H|apply digits_nonempty, H]. Qed.
Lemma take_sign_digits ds rest : is_digits ds -> ds <> [] -> take_sign (map digit_char ds ++ rest) = (false, map digit_char ds ++ rest).
Proof.
  intros H N. destruct ds as [|d ds]; [congruence|]. inversion H; subst. cbn [map app take_sign]. rewrite !digit_neq by (solve [assumption|reflexivity]). reflexivity.
Qed.

(** *** rounding *)
Lemma round_spec q : (Qabs.Qabs (inject_Z (round_half_even q) - q) <= 1 # 2)%Q.
Proof.
  assert (F := Qfloor_le q). assert (G := Qlt_floor q). unfold round_half_even. rewrite inject_Z_plus in G. apply Qabs.Qabs_Qle_condition.
  destruct (Qcompare (q - inject_Z (Qfloor q)) (1 # 2)) eqn:C.
  - apply Qeq_alt in C. destruct (Z.even (Qfloor q)); rewrite ?inject_Z_plus; change (inject_Z 1) with 1%Q; split; lra.
  - apply Qlt_alt in C. change (inject_Z 1) with 1%Q in G. split; lra.
  - apply Qgt_alt in C. rewrite inject_Z_plus. change (inject_Z 1) with 1%Q in *. split; lra.
Qed.
Lemma round_int n : round_half_even (inject_Z n) = n.
Proof.
  unfold round_half_even. rewrite Qfloor_Z. assert (C : Qcompare (inject_Z n - inject_Z n) (1 # 2) = Lt); [|rewrite C; reflexivity].
  apply Qlt_alt. unfold Qminus. rewrite Qplus_opp_r. reflexivity.
Qed.
Lemma round_compat a b : (a == b)%Q -> round_half_even a = round_half_even b.
Proof.
  intros E. unfold round_half_even. assert (F : Qfloor a = Qfloor b) by (rewrite E; reflexivity). rewrite F.
  assert (C : Qcompare (a - inject_Z (Qfloor b)) (1 # 2) = Qcompare (b - inject_Z (Qfloor b)) (1 # 2)); [|rewrite C; reflexivity].
  rewrite E. reflexivity.
Qed.
Lemma round_nonneg q : (0 <= q)%Q -> 0 <= round_half_even q.
Proof.
  intros H. assert (F : 0 <= Qfloor q). { change 0 with (Qfloor 0). apply Qfloor_resp_le, H. }
  unfold round_half_even. destruct (Qcompare _ _); [destruct (Z.even _)| |]; lia.
Qed.
Lemma round_mono a b : (a <= b)%Q -> round_half_even a <= round_half_even b.
Proof.
  intros H. destruct (Z.le_gt_cases (round_half_even a) (round_half_even b)) as [L|L]; [exact L|].
  pose proof (round_spec a) as A. pose proof (round_spec b) as B. apply Qabs.Qabs_Qle_condition in A. apply Qabs.Qabs_Qle_condition in B.
  assert (E : (inject_Z (round_half_even b) + 1 <= inject_Z (round_half_even a))%Q).
  { change 1%Q with (inject_Z 1). rewrite <- inject_Z_plus. rewrite <- Zle_Qle. lia. }
  assert (Eq : (a == b)%Q) by lra. rewrite (round_compat a b Eq). lia.
Qed.

(** *** fixed6 *)
Lemma zfill_nonempty w ds : ds <> [] -> zfill w ds <> [].
Proof. intros H E. unfold zfill in E. apply app_eq_nil in E. tauto. Qed.
Lemma Forall_app_intro {A} (P : A -> Prop) a b : Forall P a -> Forall P b -> Forall P (a ++ b).
Proof. intros. apply Forall_app. auto. Qed.
Definition is_neg (v : Q) : bool := negb (Qle_bool 0 v).
Definition micros (v : Q) : Z := round_half_even ((if is_neg v then - v else v) * inject_Z million).
Lemma micros_nonneg v : 0 <= micros v.
Proof.
  apply round_nonneg. unfold is_neg. destruct (Qle_bool 0 v) eqn:E; cbn [negb].
  - apply Qle_bool_iff in E. unfold million. change (inject_Z 1000000) with 1000000%Q. lra.
  - assert (~ (0 <= v)%Q) by (intros C; apply Qle_bool_iff in C; congruence). unfold million. change (inject_Z 1000000) with 1000000%Q. lra.
Qed.
Lemma fixed6_eq v : fixed6 v = (if is_neg v then ["-"%char] else []) ++ str_nat (micros v / million) ++ "."%char :: str_zfill 6 (micros v mod million).
Proof. reflexivity. Qed.
Lemma frac_digits n : 0 <= n -> is_digits (zfill 6 (digits (n mod million))) /\ List.length (zfill 6 (digits (n mod million))) = 6%nat.
Proof.
  intros H. unfold million. assert (B : 0 <= n mod 1000000 < 10 ^ Z.of_nat 6) by (apply Z.mod_pos_bound; lia).
  split; [apply zfill_digits, digits_are_digits; lia|]. rewrite zfill_length. assert (length (digits (n mod 1000000)) <= 6)%nat by (apply digits_length_upper; [exact B|lia]). lia.
Qed.
Lemma fixed6_word v : word (fixed6 v).
Proof.
  rewrite fixed6_eq. pose proof (micros_nonneg v) as M. assert (D : 0 <= micros v / million) by (apply Z.div_pos; [exact M|reflexivity]).
  destruct (frac_digits _ M) as [F _]. destruct (str_nat_word _ D) as [N1 N2]. split.
  - intros E. apply app_eq_nil in E. destruct E as [_ E]. apply app_eq_nil in E. destruct E; discriminate.
  - apply Forall_app_intro; [destruct (is_neg v); repeat constructor|]. apply Forall_app_intro; [exact N2|]. constructor; [reflexivity|].
    unfold str_zfill. apply digits_word; [exact F|]. apply zfill_nonempty, digits_nonempty. apply Z.mod_pos_bound. reflexivity.
Qed.
(** The value read back. *)
Definition read_back (v : Q) : Q := (inject_Z (signed (is_neg v) (micros v)) / inject_Z million)%Q.
Lemma not_special ds rest : is_digits ds -> ds <> [] -> forall s, (match s with c :: _ => is_digit c = false | [] => True end) ->
  text_eqb (map lower (map digit_char ds ++ rest)) s = false.
Proof.
  intros H N s S. unfold text_eqb. destruct (list_eq_dec ascii_dec _ s) as [E|]; [|reflexivity]. exfalso. destruct ds as [|d ds]; [congruence|].
  inversion H; subst. cbn [map app] in S. unfold lower in S at 1. rewrite code_digit in S by assumption.
  replace ((65 <=? 48 + d) && (48 + d <=? 90)) with false in S by lia. rewrite digit_is_digit in S by assumption. discriminate.
Qed.
Lemma py_float_fixed6 v : exists r, py_float (fixed6 v) = Ok (Fin r) /\ (r == read_back v)%Q.
Proof.
  pose proof (micros_nonneg v) as M. assert (D : 0 <= micros v / million) by (apply Z.div_pos; [exact M|reflexivity]).
  destruct (frac_digits _ M) as [F L]. set (ip := digits (micros v / million)). set (fp := zfill 6 (digits (micros v mod million))) in *.
  assert (Hip : is_digits ip) by (apply digits_are_digits, D). assert (Nip : ip <> []) by (apply digits_nonempty, D).
  unfold py_float. rewrite (strip_word_id _ (fixed6_word v)), fixed6_eq. unfold str_nat, str_zfill. fold ip. fold fp.
  assert (S : take_sign ((if is_neg v then ["-"%char] else []) ++ map digit_char ip ++ "."%char :: map digit_char fp)
              = (is_neg v, map digit_char ip ++ "."%char :: map digit_char fp)).
  { destruct (is_neg v); [reflexivity|]. cbn [app]. apply take_sign_digits; assumption. }
  rewrite S. rewrite !not_special by (solve [assumption|exact I|reflexivity]). cbn [orb].
  rewrite digitpart_digits by (solve [assumption|split; [reflexivity|discriminate]]). change (Ascii.eqb "." ".") with true. cbn iota.
  rewrite <- (app_nil_r (map digit_char fp)), digitpart_digits by (solve [assumption|exact I]).
  assert (NE : nonempty (ip ++ fp) = true) by (destruct ip; [congruence|reflexivity]). rewrite NE. cbn [exponent].
  eexists. split; [reflexivity|]. rewrite L. assert (U : undigits (ip ++ fp) = micros v).
  { rewrite undigits_app, L. unfold fp. rewrite undigits_zfill. unfold ip. rewrite !undigits_digits by (solve [exact D|apply Z.mod_pos_bound; reflexivity]).
    change (10 ^ Z.of_nat 6) with million. rewrite Z.mul_comm. symmetry. apply Z.div_mod. discriminate. }
  rewrite U. change (pow10 (0 - Z.of_nat 6)) with (/ inject_Z million)%Q. reflexivity.
Qed.
Lemma read_back_close v : (Qabs.Qabs (read_back v - v) <= 1 # 2000000)%Q.
Proof.
  unfold read_back, micros. pose proof (round_spec ((if is_neg v then - v else v) * inject_Z million)) as R.
  set (n := round_half_even _) in *. change (inject_Z million) with (1000000)%Q in *. apply Qabs.Qabs_Qle_condition in R. apply Qabs.Qabs_Qle_condition.
  assert (E : forall z, (inject_Z z / 1000000 == inject_Z z * (1 # 1000000))%Q) by (intros z; reflexivity). rewrite E.
  destruct (is_neg v); cbn [signed]; rewrite ?inject_Z_opp; split; lra.
Qed.
Lemma read_back_exact v n : (v == inject_Z n / inject_Z million)%Q -> (read_back v == v)%Q.
Proof.
  intros H. unfold read_back, micros. change (inject_Z million) with 1000000%Q in *.
  assert (E : forall z, (inject_Z z / 1000000 == inject_Z z * (1 # 1000000))%Q) by (intros z; reflexivity). rewrite E in *.
  assert (R : round_half_even ((if is_neg v then - v else v) * 1000000) = (if is_neg v then - n else n)).
  { rewrite <- (round_int (if is_neg v then - n else n)). apply round_compat. destruct (is_neg v); rewrite ?inject_Z_opp; lra. }
  rewrite R. destruct (is_neg v); cbn [signed]; rewrite ?inject_Z_opp; lra.
Qed.

(** *** words *)
Lemma split_by_app p w c r : Forall (fun a => p a = false) w -> p c = true -> split_by p (w ++ c :: r) = w :: split_by p r.
Proof.
  induction 1 as [|a w Ha H IH]; intros Hc; cbn [app split_by].
  - rewrite Hc. reflexivity.
  - rewrite Ha, (IH Hc). reflexivity.
Qed.
Lemma split_by_none p w : Forall (fun a => p a = false) w -> split_by p w = [w].
Proof. induction 1 as [|a w Ha H IH]; [reflexivity|]. cbn [split_by]. rewrite Ha, IH. reflexivity. Qed.
Lemma words_cons_space c t : is_space c = true -> words (c :: t) = words t.
Proof. intros H. unfold words. cbn [split_by]. rewrite H. reflexivity. Qed.
Lemma words_spaces s t : spaces s -> words (s ++ t) = words t.
Proof. induction 1; [reflexivity|]. cbn [app]. rewrite words_cons_space by assumption. assumption. Qed.
Lemma words_word w s t : word w -> spaces s -> s <> [] -> words (w ++ s ++ t) = w :: words t.
Proof.
  intros [N W] S NS. destruct s as [|c s]; [congruence|]. inversion S; subst. unfold words at 1. cbn [app]. rewrite split_by_app by assumption.
  cbn [filter]. destruct w; [congruence|]. cbn [nonempty]. fold (words (s ++ t)). rewrite words_spaces by assumption. reflexivity.
Qed.
Lemma words_last w s : word w -> spaces s -> words (w ++ s) = [w].
Proof.
  intros W S. destruct s as [|c s].
  - rewrite app_nil_r. unfold words. rewrite split_by_none by apply W. destruct W as [N _]. destruct w; [congruence|reflexivity].
  - rewrite <- (app_nil_r (c :: s)), words_word by (solve [assumption|discriminate]). reflexivity.
Qed.
Lemma spaces_repeat n : spaces (repeat " "%char n).
Proof. apply Forall_forall. intros c I. apply repeat_spec in I. subst. reflexivity. Qed.
