(** Lemmas about result files. *)
From Verif Require Export SpecResults ProofsText.
From Coq Require Import Lia ZifyBool ZifyNat Lqa.
Open Scope Z_scope.
Open Scope list_scope.

Lemma text_eqb_refl t : text_eqb t t = true.
Proof. unfold text_eqb. destruct (list_eq_dec ascii_dec t t); congruence. Qed.
Lemma text_eqb_spec a b : text_eqb a b = true <-> a = b.
Proof. unfold text_eqb. destruct (list_eq_dec ascii_dec a b); split; congruence. Qed.
Lemma write_same p c s : write p c s p = Some c.
Proof. unfold write. rewrite text_eqb_refl. reflexivity. Qed.
Lemma write_other p c s q : p <> q -> write p c s q = s q.
Proof. intros H. unfold write. destruct (text_eqb p q) eqn:E; [apply text_eqb_spec in E; contradiction|reflexivity]. Qed.

Lemma fixed6_shows v : shows v (fixed6 v).
Proof. destruct (py_float_fixed6 v) as (r & E & R). exists r. split; [exact E|]. rewrite R. apply read_back_close. Qed.

(** The characters of a field. *)
Definition plain (c : ascii) : Prop := is_digit c = true \/ c = "."%char \/ c = "-"%char \/ c = " "%char.
Lemma digits_plain ds : is_digits ds -> Forall plain (map digit_char ds).
Proof. intros H. apply Forall_forall. intros c I. apply in_map_iff in I. destruct I as (d & <- & I). left. apply digit_is_digit. revert d I. apply Forall_forall, H. Qed.
Lemma fixed6_plain v : Forall plain (fixed6 v).
Proof.
  rewrite fixed6_eq. pose proof (micros_nonneg v) as M. destruct (frac_digits _ M) as [F _].
  apply Forall_app_intro; [destruct (is_neg v); repeat constructor; right; right; left; reflexivity|].
  apply Forall_app_intro; [apply digits_plain, digits_are_digits, Z.div_pos; [exact M|reflexivity]|].
  constructor; [right; left; reflexivity|]. apply digits_plain, F.
Qed.
Lemma field_plain v : Forall plain (field v).
Proof. apply Forall_app_intro; [apply fixed6_plain|]. apply Forall_forall. intros c I. apply repeat_spec in I. subst. right; right; right; reflexivity. Qed.
Lemma join_plain l : Forall (Forall plain) l -> Forall plain (join_fields l).
Proof.
  induction l as [|a [|b l] IH]; intros H; [constructor|inversion H; assumption|].
  inversion H; subst. cbn [join_fields]. apply Forall_app_intro; [assumption|]. constructor; [right; right; right; reflexivity|]. apply IH. assumption.
Qed.
Lemma fields_plain l : Forall (Forall plain) (map field l).
Proof. apply Forall_forall. intros t I. apply in_map_iff in I. destruct I as (v & <- & _). apply field_plain. Qed.
Lemma plain_not c d : plain c -> is_digit d = false -> d <> "."%char -> d <> "-"%char -> d <> " "%char -> Ascii.eqb d c = false.
Proof. intros P A B C D. destruct (Ascii.eqb_spec d c) as [->|]; [|reflexivity]. destruct P as [P|[P|[P|P]]]; congruence. Qed.

Lemma words_fields l : words (join_fields (map field l)) = map fixed6 l.
Proof.
  induction l as [|a [|b l] IH]; [reflexivity| |].
  - cbn [map join_fields]. unfold field, pad_right. apply words_last; [apply fixed6_word|apply spaces_repeat].
  - change (join_fields (map field (a :: b :: l))) with (field a ++ " "%char :: join_fields (map field (b :: l))).
    unfold field at 1, pad_right. rewrite <- app_assoc. set (n := (10 - _)%nat).
    change (repeat " "%char n ++ " "%char :: join_fields (map field (b :: l))) with (repeat " "%char n ++ [" "%char] ++ join_fields (map field (b :: l))).
    rewrite app_assoc with (l := repeat " "%char n). rewrite words_word.
    + rewrite IH. reflexivity.
    + apply fixed6_word.
    + apply Forall_app_intro; [apply spaces_repeat|repeat constructor].
    + intros E. apply app_eq_nil in E. destruct E; discriminate.
Qed.
Lemma words_name_fields n l : word n -> l <> [] -> words (join_fields (n :: map field l)) = n :: map fixed6 l.
Proof.
  intros W N. destruct l as [|a l]; [congruence|].
  change (join_fields (n :: map field (a :: l))) with (n ++ [" "%char] ++ join_fields (map field (a :: l))).
  rewrite words_word by (solve [assumption|repeat constructor|discriminate]). rewrite words_fields. reflexivity.
Qed.
(** Splitting the lines of a file. *)
Lemma split_lines (ls : list text) : Forall (Forall (fun c => Ascii.eqb LF c = false)) ls ->
  split_by (Ascii.eqb LF) (List.concat (map (fun t => t ++ [LF]) ls)) = ls ++ [[]].
Proof.
  induction 1 as [|t ls H F IH]; [reflexivity|]. cbn [map List.concat]. rewrite <- app_assoc. cbn [app]. rewrite split_by_app by (solve [assumption|reflexivity]).
  rewrite IH. reflexivity.
Qed.
Lemma drop_last_snoc ls : drop_last_empty (ls ++ [[]]) = ls.
Proof.
  induction ls as [|t [|u ls] IH]; [reflexivity|reflexivity|].
  change ((t :: u :: ls) ++ [[]]) with (t :: (u :: ls) ++ [[]]). cbn [drop_last_empty]. rewrite IH. reflexivity.
Qed.
Lemma table_lines ls : Forall (Forall (fun c => Ascii.eqb LF c = false)) ls -> table (List.concat (map (fun t => t ++ [LF]) ls)) = map words ls.
Proof. intros H. unfold table. rewrite split_lines, drop_last_snoc by exact H. reflexivity. Qed.
Lemma nospace_nolf t : Forall (fun c => is_space c = false) t -> Forall (fun c => Ascii.eqb LF c = false) t.
Proof. apply Forall_impl. intros c H. destruct (Ascii.eqb_spec LF c) as [<-|]; [discriminate|reflexivity]. Qed.
Lemma plain_nolf t : Forall plain t -> Forall (fun c => Ascii.eqb LF c = false) t.
Proof. apply Forall_impl. intros c H. apply plain_not; [exact H|reflexivity|discriminate|discriminate|discriminate]. Qed.
Lemma join_forall (P : ascii -> Prop) l : P " "%char -> Forall (Forall P) l -> Forall P (join_fields l).
Proof.
  intros S. induction l as [|a [|b l] IH]; intros H; [constructor|inversion H; assumption|].
  inversion H; subst. cbn [join_fields]. apply Forall_app_intro; [assumption|]. constructor; [exact S|]. apply IH. assumption.
Qed.

(** loadtxt *)
Lemma universal_id t : Forall (fun c => Ascii.eqb c CR = false) t -> universal_newlines t = t.
Proof. induction 1 as [|c t H F IH]; [reflexivity|]. cbn [universal_newlines]. rewrite H, IH. reflexivity. Qed.
Lemma plain_nocr t : Forall plain t -> Forall (fun c => Ascii.eqb c CR = false) t.
Proof. apply Forall_impl. intros c H. rewrite Ascii.eqb_sym. apply plain_not; [exact H|reflexivity|discriminate|discriminate|discriminate]. Qed.
Lemma take_while_all p t : Forall (fun c => p c = true) t -> take_while p t = t.
Proof. induction 1 as [|c t H F IH]; [reflexivity|]. cbn [take_while]. rewrite H, IH. reflexivity. Qed.
Lemma plain_cells t : Forall plain t -> cells t = words t.
Proof.
  intros H. unfold cells. rewrite take_while_all; [reflexivity|]. revert H. apply Forall_impl. intros c H. unfold not_hash.
  rewrite Ascii.eqb_sym, (plain_not c "#"%char); [reflexivity|exact H|reflexivity|discriminate|discriminate|discriminate].
Qed.
Lemma floats_fixed6 l : exists rs, floats (map fixed6 l) = Ok (map Fin rs) /\ Forall2 (fun v r => r == read_back v)%Q l rs.
Proof.
  induction l as [|v l (rs & E & F)]; [exists []; split; [reflexivity|constructor]|].
  destruct (py_float_fixed6 v) as (r & Er & R). exists (r :: rs). cbn [map floats]. rewrite Er. cbn [bind]. rewrite E. split; [reflexivity|]. constructor; assumption.
Qed.
Lemma floats_rows_fixed6 ll : exists rss, floats_rows (map (map fixed6) ll) = Ok (map (map Fin) rss) /\ Forall2 (Forall2 (fun v r => r == read_back v)%Q) ll rss.
Proof.
  induction ll as [|l ll (rss & E & F)]; [exists []; split; [reflexivity|constructor]|].
  destruct (floats_fixed6 l) as (rs & El & Fl). exists (rs :: rss). cbn [map floats_rows]. rewrite El. cbn [bind]. rewrite E. split; [reflexivity|]. constructor; assumption.
Qed.
Lemma F2_length {A B} (R : A -> B -> Prop) l m : Forall2 R l m -> List.length l = List.length m.
Proof. induction 1; cbn; congruence. Qed.
(** The rows of numbers in a file whose lines are fields. *)
Lemma loadtxt_lines (ll : list (list Q)) n t : (1 <= n)%nat -> Forall (fun l => List.length l = n) ll -> ll <> [] ->
  (t = List.concat (map (fun u => u ++ [LF]) (map (fun l => join_fields (map field l)) ll)) \/ (exists l, ll = [l] /\ t = join_fields (map field l))) ->
  exists rss, loadtxt t = Ok (squeeze (map (map Fin) rss)) /\ Forall2 (Forall2 (fun v r => r == read_back v)%Q) ll rss.
Proof.
  intros Hn Hl Nl Ht. set (ls := map (fun l => join_fields (map field l)) ll).
  assert (Pl : Forall (Forall plain) ls).
  { apply Forall_forall. intros u I. apply in_map_iff in I. destruct I as (l & <- & _). apply join_plain, fields_plain. }
  assert (R : filter nonempty (map cells (split_by (Ascii.eqb LF) (universal_newlines t))) = map (map fixed6) ll).
  { assert (C : forall l, In l ll -> cells (join_fields (map field l)) = map fixed6 l).
    { intros l _. rewrite plain_cells by (apply join_plain, fields_plain). apply words_fields. }
    assert (NE : forall l, In l ll -> nonempty (map fixed6 l) = true).
    { intros l I. assert (L := proj1 (Forall_forall _ _) Hl l I). destruct l; [cbn in L; lia|reflexivity]. }
    assert (K : filter nonempty (map cells ls) = map (map fixed6) ll).
    { unfold ls. rewrite map_map. clear - C NE. induction ll as [|l ll IH]; [reflexivity|]. cbn [map filter]. rewrite (C l) by (left; reflexivity).
      rewrite (NE l) by (left; reflexivity). f_equal. apply IH; intros; [apply C|apply NE]; right; assumption. }
    destruct Ht as [->|(l & -> & ->)].
    - rewrite universal_id.
      + fold ls. rewrite split_lines by (revert Pl; apply Forall_impl; intros; apply plain_nolf; assumption). rewrite map_app, filter_app, K. cbn. apply app_nil_r.
      + fold ls. clear - Pl. induction Pl as [|u ls H F IH]; [constructor|]. cbn [map List.concat]. apply Forall_app_intro; [|exact IH].
        apply Forall_app_intro; [apply plain_nocr, H|repeat constructor].
    - cbn [map] in ls. inversion Pl; subst. rewrite universal_id by (apply plain_nocr; assumption). rewrite split_by_none by (apply plain_nolf; assumption). exact K. }
  destruct (floats_rows_fixed6 ll) as (rss & E & F). exists rss. split; [|exact F]. unfold loadtxt. rewrite R, E. cbn [bind].
  assert (Lr : Forall (fun r => List.length r = n) (map (map Fin) rss)).
  { clear - F Hl. induction F as [|l r ll rss H F IH]; [constructor|]. inversion Hl; subst. cbn [map]. constructor; [|apply IH; assumption].
    rewrite map_length. symmetry. eapply F2_length, H. }
  destruct (map (map Fin) rss) as [|r rs] eqn:Em.
  - exfalso. destruct rss; [|discriminate]. inversion F; subst. congruence.
  - assert (forallb (fun x => Nat.eqb (List.length x) (List.length r)) (r :: rs) = true) as ->; [|reflexivity].
    apply forallb_forall. intros x I. apply Nat.eqb_eq. rewrite Forall_forall in Lr. rewrite (Lr x I), (Lr r (or_introl eq_refl)). reflexivity.
Qed.
