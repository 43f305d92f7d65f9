(** Directory scans, split files and the NMS helpers' file names: theorems. *)
From Verif Require Export PropertiesUtils.
From Coq Require Import Lia ZifyBool ZifyNat.
Open Scope Z_scope.
Open Scope list_scope.

(** ** C40 *)
Lemma node_induct (P : node -> Prop) : P File -> P Other -> (forall es, Forall (fun e => P (snd e)) es -> P (Dir es)) -> forall d, P d.
Proof.
  intros A B C. fix IH 1. intros [| |es]; [exact A|exact B|]. apply C. induction es as [|[n x] es IHes]; constructor; [apply IH|exact IHes].
Qed.
Lemma endswith_spec t s : endswith t s = true <-> exists u, t = u ++ s.
Proof.
  unfold endswith. rewrite startswith_spec. split.
  - intros (r & E). exists (rev r). rewrite <- (rev_involutive t), E, rev_app_distr, rev_involutive. reflexivity.
  - intros (u & ->). exists (rev u). apply rev_app_distr.
Qed.
Lemma suffix_ok_spec sf cs p : suffix_ok sf cs p = true <-> suffix_matches sf cs p.
Proof.
  destruct sf as [l|]; cbn [suffix_ok suffix_matches]; [|tauto]. rewrite existsb_exists. destruct cs.
  - split.
    + intros (s & I & E). apply endswith_spec in E. destruct E as (u & E). exists s, u. auto.
    + intros (s & u & I & E). exists s. split; [exact I|apply endswith_spec; exists u; exact E].
  - split.
    + intros (s & I & E). apply in_map_iff in I. destruct I as (s' & <- & I). apply endswith_spec in E. destruct E as (u & E). exists s', u. auto.
    + intros (s & u & I & E). exists (lower_text s). split; [apply in_map, I|apply endswith_spec; exists u; exact E].
Qed.
Lemma hidden_spec n : hidden n = true <-> exists r, n = "."%char :: r.
Proof. unfold hidden. rewrite startswith_spec. reflexivity. Qed.
(** The path below a prefix. *)
Definition below (prefix : text) (ns : list text) : text := rel_join prefix (join_with "/" ns).
Lemma below_cons prefix n ns : n <> [] -> ns <> [] -> below prefix (n :: ns) = below (rel_join prefix n) ns.
Proof.
  intros N M. unfold below. destruct ns as [|m ns]; [congruence|]. change (join_with "/" (n :: m :: ns)) with (n ++ "/"%char :: join_with "/" (m :: ns)).
  set (j := join_with "/" (m :: ns)). destruct prefix as [|c p]; unfold rel_join; [destruct n; [congruence|reflexivity]|]. cbn [app]. rewrite <- app_assoc. reflexivity.
Qed.
Definition scan_entries (sf : option (list text)) (rc cs : bool) (prefix : text) (es : list (text * node)) : list text :=
  List.concat (map (fun e : text * node => let '(name, x) := e in
    if negb (hidden name) && match x with File => true | _ => false end then
      if suffix_ok sf cs (rel_join prefix name) then [rel_join prefix name] else []
    else if rc then scan sf rc cs (rel_join prefix name) x else []) es).
Lemma scan_dir sf rc cs prefix es : scan sf rc cs prefix (Dir es) = scan_entries sf rc cs prefix es.
Proof. unfold scan_entries. cbn [scan]. induction es as [|[n x] es IH]; [reflexivity|]. cbn [map List.concat]. rewrite <- IH. reflexivity. Qed.
(** What is found below a directory. *)
Definition found (d : node) (rc : bool) (p : list text) : Prop :=
  exists dirs name, p = dirs ++ [name] /\ at_path d p File /\ hidden name = false /\ (rc = true \/ dirs = []).
Lemma found_leaf d rc p : (forall es, d <> Dir es) -> ~ found d rc p.
Proof. intros H (dirs & name & -> & A & _). inversion A; subst; [destruct dirs; discriminate|]. eapply H. reflexivity. Qed.
Lemma found_dir es rc p : found (Dir es) rc p <->
  (exists name, p = [name] /\ In (name, File) es /\ hidden name = false) \/ (rc = true /\ exists n x q, p = n :: q /\ In (n, x) es /\ found x rc q).
Proof.
  split.
  - intros (dirs & name & E & A & H & R). destruct dirs as [|n dirs].
    + left. exists name. cbn [app] in E. subst p. inversion A as [|? ? ? ? ? I A']; subst. inversion A'; subst. auto.
    + right. destruct R as [R|R]; [|discriminate]. split; [exact R|]. subst p. cbn [app] in A. inversion A as [|? ? x ? ? I A']; subst. exists n, x, (dirs ++ [name]). split; [reflexivity|]. split; [exact I|].
      exists dirs, name. auto.
  - intros [(name & -> & I & H)|(R & n & x & q & -> & I & (dirs & name & -> & A & H & _))].
    + exists [], name. split; [reflexivity|]. split; [econstructor; [exact I|constructor]|]. auto.
    + exists (n :: dirs), name. split; [reflexivity|]. split; [econstructor; [exact I|exact A]|]. auto.
Qed.
Lemma found_nonempty d rc p : found d rc p -> p <> [].
Proof. intros (dirs & name & -> & _). destruct dirs; discriminate. Qed.
Lemma scan_spec sf rc cs d : wf_node d -> forall prefix p, In p (scan sf rc cs prefix d) <-> exists ns, found d rc ns /\ p = below prefix ns /\ suffix_ok sf cs p = true.
Proof.
  induction d as [| |es IH] using node_induct; intros W prefix p.
  - split; [contradiction|]. intros (ns & F & _). exfalso. revert F. apply found_leaf. discriminate.
  - split; [contradiction|]. intros (ns & F & _). exfalso. revert F. apply found_leaf. discriminate.
  - rewrite scan_dir. unfold scan_entries. rewrite in_concat. inversion W as [| |? ND FW]; subst. rewrite Forall_forall in IH, FW. split.
    + intros (l & Il & Ip). apply in_map_iff in Il. destruct Il as ([name x] & El & Ie). destruct (FW _ Ie) as (Nn & _ & Wx). cbn [fst snd] in Nn, Wx.
      destruct (negb (hidden name) && match x with File => true | _ => false end) eqn:C.
      * destruct x; try (rewrite andb_false_r in C; discriminate). destruct (suffix_ok sf cs (rel_join prefix name)) eqn:S; [|subst l; contradiction]. subst l. destruct Ip as [<-|[]].
        exists [name]. split; [|split; [reflexivity|exact S]]. apply found_dir. left. exists name. split; [reflexivity|]. split; [exact Ie|]. rewrite andb_true_r in C. destruct (hidden name); [discriminate|reflexivity].
      * destruct rc; [|subst l; contradiction]. subst l. apply (IH _ Ie Wx) in Ip. destruct Ip as (ns & F & E & S). exists (name :: ns). split; [|split; [|exact S]].
        -- apply found_dir. right. split; [reflexivity|]. exists name, x, ns. auto.
        -- rewrite below_cons; [exact E|exact Nn|apply (found_nonempty _ _ _ F)].
    + intros (ns & F & E & S). apply found_dir in F. destruct F as [(name & -> & Ie & H)|(-> & n & x & q & -> & Ie & Fx)].
      * exists [rel_join prefix name]. split; [|left; symmetry; exact E]. apply in_map_iff. exists (name, File). split; [|exact Ie]. rewrite H. cbn [negb andb].
        unfold below in E. cbn [join_with] in E. rewrite <- E, S. reflexivity.
      * destruct (FW _ Ie) as (Nn & _ & Wx). cbn [fst snd] in Nn, Wx. exists (scan sf true cs (rel_join prefix n) x). split.
        -- apply in_map_iff. exists (n, x). split; [|exact Ie]. assert (C : negb (hidden n) && match x with File => true | _ => false end = false).
           { destruct x; [|apply andb_false_r|apply andb_false_r]. exfalso. revert Fx. apply found_leaf. discriminate. }
           rewrite C. reflexivity.
        -- apply (IH _ Ie Wx). exists q. split; [exact Fx|]. split; [|exact S]. rewrite E. apply below_cons; [exact Nn|apply (found_nonempty _ _ _ Fx)].
Qed.
(** The scan lists exactly the files of interest. *)
Theorem scandir_lists_the_files : forall d suffix recursive case_sensitive p, wf_node d ->
  (In p (scandir d suffix recursive case_sensitive) <-> of_interest d suffix recursive case_sensitive p).
Proof.
  intros d sf rc cs p W. unfold scandir. rewrite (scan_spec sf rc cs d W [] p). unfold of_interest, found, below, rel_join. split.
  - intros (ns & (dirs & name & -> & A & H & R) & -> & S). exists dirs, name. split; [exact A|]. split; [intros X; apply hidden_spec in X; congruence|]. split; [exact R|]. split; [reflexivity|apply suffix_ok_spec, S].
  - intros (dirs & name & A & H & R & -> & S). exists (dirs ++ [name]). split; [|split; [reflexivity|apply suffix_ok_spec, S]]. exists dirs, name. split; [reflexivity|]. split; [exact A|]. split; [|exact R].
    destruct (hidden name) eqn:X; [|reflexivity]. apply hidden_spec in X. contradiction.
Qed.
Print Assumptions scandir_lists_the_files.
(** Each file is listed once. *)
Lemma join_inj_slash a : forall b, Forall (fun n => ~ In "/"%char n) a -> Forall (fun n => ~ In "/"%char n) b -> a <> [] -> b <> [] -> join_with "/" a = join_with "/" b -> a = b.
Proof.
  intros b Fa Fb Na Nb E. rewrite <- (split_join "/" a Na Fa), <- (split_join "/" b Nb Fb), E. reflexivity.
Qed.
Lemma at_path_names d ns x : wf_node d -> at_path d ns x -> Forall (fun n => ~ In "/"%char n) ns.
Proof.
  intros W A. induction A as [|es name d ns x I A IH]; [constructor|]. inversion W as [| |? _ FW]; subst. rewrite Forall_forall in FW. destruct (FW _ I) as (_ & B & C). constructor; [exact B|apply IH, C].
Qed.
Lemma below_inj prefix a b : below prefix a = below prefix b -> join_with "/" a = join_with "/" b.
Proof. unfold below, rel_join. destruct prefix as [|c p]; [auto|]. intros E. apply app_inv_head in E. congruence. Qed.
Lemma NoDup_app2 {A} (l m : list A) : NoDup l -> NoDup m -> (forall x, In x l -> ~ In x m) -> NoDup (l ++ m).
Proof.
  intros Hl Hm D. induction Hl as [|x l N Hl IH]; [exact Hm|]. cbn [app]. constructor.
  - intros C. apply in_app_or in C. destruct C as [C|C]; [contradiction|]. apply (D x); [left; reflexivity|exact C].
  - apply IH. intros y I. apply D. right. exact I.
Qed.
Lemma scan_NoDup sf rc cs d : wf_node d -> forall prefix, NoDup (scan sf rc cs prefix d).
Proof.
  induction d as [| |es IH] using node_induct; intros W prefix; [constructor|constructor|]. rewrite scan_dir. inversion W as [| |? ND FW]; subst.
  (* the part of each entry is known by [scan_spec] applied to the directory with that entry only *)
  assert (K : forall name x p, In (name, x) es -> In p (scan_entries sf rc cs prefix [(name, x)]) -> exists ns, p = below prefix (name :: ns) /\ Forall (fun n => ~ In "/"%char n) (name :: ns)).
  { intros name x p I Ip. rewrite <- scan_dir in Ip. assert (W1 : wf_node (Dir [(name, x)])). { rewrite Forall_forall in FW. constructor; [cbn; constructor; [intros []|constructor]|]. constructor; [apply FW, I|constructor]. }
    apply (scan_spec sf rc cs _ W1) in Ip. destruct Ip as (ns & F & -> & _). destruct F as (dirs & nm & -> & A & _). assert (Nm := at_path_names _ _ _ W1 A).
    inversion A as [|? ? ? ns' ? I' A']; subst; try (destruct dirs; discriminate). destruct I' as [E|[]]. injection E as -> ->. exists ns'. split; [reflexivity|congruence]. }
  assert (G : forall l, incl l es -> NoDup (map fst l) -> NoDup (scan_entries sf rc cs prefix l)).
  { induction l as [|[name x] l IHl]; intros Inc N; [constructor|]. assert (E : scan_entries sf rc cs prefix ((name, x) :: l) = scan_entries sf rc cs prefix [(name, x)] ++ scan_entries sf rc cs prefix l).
    { unfold scan_entries. cbn [map List.concat]. rewrite app_nil_r. reflexivity. }
    rewrite E. cbn [map fst] in N. inversion N as [|? ? Nn Nl]; subst. assert (Ix : In (name, x) es) by (apply Inc; left; reflexivity).
    apply NoDup_app2.
    - unfold scan_entries. cbn [map List.concat]. rewrite app_nil_r. destruct (negb (hidden name) && _); [destruct (suffix_ok _ _ _); repeat constructor; intros []|]. destruct rc; [|constructor].
      rewrite Forall_forall in IH, FW. apply (IH _ Ix). apply (FW _ Ix).
    - apply IHl; [intros e I; apply Inc; right; exact I|exact Nl].
    - intros p Ip Iq. destruct (K name x p Ix Ip) as (ns & -> & F1). unfold scan_entries in Iq. apply in_concat in Iq. destruct Iq as (s & Is & Iq). apply in_map_iff in Is. destruct Is as ([m y] & Es & Im).
      assert (Iq' : In (below prefix (name :: ns)) (scan_entries sf rc cs prefix [(m, y)])). { unfold scan_entries. cbn [map List.concat]. rewrite app_nil_r, Es. exact Iq. }
      destruct (K m y _ (Inc _ (or_intror Im)) Iq') as (ms & E2 & F2). apply below_inj, join_inj_slash in E2; try assumption; try discriminate. injection E2 as -> _.
      apply Nn. apply (in_map fst) in Im. exact Im. }
  apply G; [apply incl_refl|exact ND].
Qed.
Theorem scandir_lists_each_file_once : forall d suffix recursive case_sensitive, wf_node d -> NoDup (scandir d suffix recursive case_sensitive).
Proof. intros. apply scan_NoDup. assumption. Qed.
Print Assumptions scandir_lists_each_file_once.
(** A suffix without a slash is a suffix of the file's own name. *)
Theorem suffix_is_of_the_file_name : forall d suffix recursive p, wf_node d -> ~ In "/"%char suffix ->
  (In p (scandir d (Some [suffix]) recursive true) <->
   exists dirs name stem, at_path d (dirs ++ [name]) File /\ name = stem ++ suffix /\ ~ (exists r, name = "."%char :: r) /\ (recursive = true \/ dirs = []) /\ p = join_with "/" (dirs ++ [name])).
Proof.
  intros d sf rc p W Ns. rewrite scandir_lists_the_files by exact W. unfold of_interest. cbn [suffix_matches]. split.
  - intros (dirs & name & A & H & R & -> & s & u & [<-|[]] & E). assert (X : exists stem, name = stem ++ sf).
    { clear - E Ns. assert (J : exists pre, join_with "/" (dirs ++ [name]) = pre ++ name /\ (pre = [] \/ exists q, pre = q ++ ["/"%char])).
      { clear E. induction dirs as [|d dirs (pre & IH & _)]; [exists []; split; [reflexivity|left; reflexivity]|].
        assert (E : join_with "/" ((d :: dirs) ++ [name]) = d ++ "/"%char :: join_with "/" (dirs ++ [name])) by (destruct dirs; reflexivity).
        rewrite E, IH. exists (d ++ "/"%char :: pre). split; [rewrite <- app_assoc; reflexivity|]. right.
        destruct dirs as [|d' dirs].
        - exists d. assert (pre = []); [|subst; reflexivity]. cbn in IH. apply (f_equal (@List.length ascii)) in IH. rewrite app_length in IH. destruct pre; [reflexivity|cbn in IH; lia].
        - (* the last character of [pre] *)
          assert (Y : exists q, pre = q ++ ["/"%char]).
          { clear - IH. revert d' pre IH. induction dirs as [|e dirs IHd]; intros d' pre IH.
            - cbn in IH. change ("/"%char :: name) with (["/"%char] ++ name) in IH. rewrite app_assoc in IH. apply app_inv_tail in IH. exists d'. symmetry. exact IH.
            - assert (E : join_with "/" ((d' :: e :: dirs) ++ [name]) = d' ++ "/"%char :: join_with "/" ((e :: dirs) ++ [name])) by reflexivity. rewrite E in IH.
              assert (Z : exists pre', join_with "/" ((e :: dirs) ++ [name]) = pre' ++ name).
              { clear. revert e. induction dirs as [|f dirs IH]; intros e; [exists (e ++ ["/"%char]); cbn; rewrite <- app_assoc; reflexivity|].
                destruct (IH f) as (pre & E). exists (e ++ "/"%char :: pre). change (join_with "/" ((e :: f :: dirs) ++ [name])) with (e ++ "/"%char :: join_with "/" ((f :: dirs) ++ [name])). rewrite E, <- app_assoc. reflexivity. }
              destruct Z as (pre' & Z). destruct (IHd e pre' Z) as (q & Q). rewrite Z, Q in IH. replace (d' ++ "/"%char :: (q ++ ["/"%char]) ++ name) with ((d' ++ "/"%char :: q ++ ["/"%char]) ++ name) in IH
                by (rewrite <- !app_assoc; cbn [app]; rewrite <- !app_assoc; reflexivity).
              apply app_inv_tail in IH. exists (d' ++ "/"%char :: q). rewrite <- IH, <- app_assoc. reflexivity. }
          destruct Y as (q & ->). exists (d ++ "/"%char :: q). rewrite <- app_assoc. reflexivity. }
      destruct J as (pre & J & P). rewrite J in E. destruct P as [->|(q & ->)]; [exists u; exact E|]. rewrite <- app_assoc in E. cbn [app] in E.
      (* compare [q ++ "/" :: name] with [u ++ sf] *)
      clear - E Ns. revert u E. induction q as [|c q IH]; intros u E.
      - destruct u as [|a u]; cbn [app] in E; [exfalso; apply Ns; rewrite <- E; left; reflexivity|]. exists u. congruence.
      - destruct u as [|a u]; cbn [app] in E; [exfalso; apply Ns; rewrite <- E; right; apply in_or_app; right; left; reflexivity|]. apply (IH u). congruence. }
    destruct X as (stem & X). exists dirs, name, stem. auto.
  - intros (dirs & name & stem & A & E & H & R & ->). exists dirs, name. split; [exact A|]. split; [exact H|]. split; [exact R|]. split; [reflexivity|]. exists sf.
    assert (J : exists pre, join_with "/" (dirs ++ [name]) = pre ++ name).
    { clear. induction dirs as [|d dirs (pre & IH)]; [exists []; reflexivity|]. exists (d ++ "/"%char :: pre).
      assert (E : join_with "/" ((d :: dirs) ++ [name]) = d ++ "/"%char :: join_with "/" (dirs ++ [name])) by (destruct dirs; reflexivity). rewrite E, IH, <- app_assoc. reflexivity. }
    destruct J as (pre & J). exists (pre ++ stem). split; [left; reflexivity|]. rewrite J, E, app_assoc. reflexivity.
Qed.
Print Assumptions suffix_is_of_the_file_name.
(** Only the name of the file itself is tested: files in hidden directories are listed. *)
Theorem hidden_directories_skipped_refuted : ~ (forall d p, wf_node d -> In p (scandir d None true true) -> hidden p = false).
Proof.
  intros H. specialize (H (Dir [(lit ".git", Dir [(lit "config", File)])]) (lit ".git/config")).
  assert (W : wf_node (Dir [(lit ".git", Dir [(lit "config", File)])])).
  { constructor; [repeat constructor; intros []|]. constructor; [|constructor]. split; [discriminate|]. split; [cbn; intuition discriminate|].
    constructor; [repeat constructor; intros []|]. constructor; [|constructor]. split; [discriminate|]. split; [cbn; intuition discriminate|constructor]. }
  specialize (H W (or_introl eq_refl)). discriminate.
Qed.
Print Assumptions hidden_directories_skipped_refuted.
Definition ex_tree : node := Dir [(lit "b.PNG", File); (lit "sub", Dir [(lit "a.png", File); (lit ".h.png", File); (lit "c.txt", File)]); (lit "dev.png", Other)].
Example ex_scan : scandir ex_tree (Some [lit ".png"]) true false = [lit "b.PNG"; lit "sub/a.png"] /\ scandir ex_tree (Some [lit ".png"]) true true = [lit "sub/a.png"] /\ scandir ex_tree None false true = [lit "b.PNG"].
Proof. vm_compute. repeat split. Qed.
Example ex_tree_wf : wf_node ex_tree.
Proof.
  unfold ex_tree. constructor; [cbn; repeat constructor; cbn; intuition discriminate|]. repeat (constructor; [split; [discriminate|split; [cbn; intuition discriminate|]]; try constructor|]); [| |constructor].
  - cbn; repeat constructor; cbn; intuition discriminate.
  - repeat (constructor; [split; [discriminate|split; [cbn; intuition discriminate|constructor]]|]). constructor.
Qed.

(** ** C43 *)
Lemma no_cr t : ~ In CR t -> universal_newlines t = t.
Proof.
  induction t as [|c t IH]; intros N; [reflexivity|]. cbn [universal_newlines]. destruct (Ascii.eqb_spec c CR) as [->|C]; [exfalso; apply N; left; reflexivity|].
  f_equal. apply IH. intros I. apply N. right. exact I.
Qed.
Lemma split_lines names : Forall one_line names -> split_by is_linebreak (write_lines names) = names ++ [[]].
Proof.
  induction 1 as [|n names H F IH]; [reflexivity|]. unfold write_lines in *. cbn [map List.concat app]. rewrite <- app_assoc. cbn [app].
  rewrite split_by_app by (solve [exact H|reflexivity]). rewrite IH. reflexivity.
Qed.
Lemma drop_last names : drop_last_empty (names ++ [[]]) = names.
Proof. induction names as [|n names IH]; [reflexivity|]. cbn [app drop_last_empty]. destruct (names ++ [[]]) eqn:E; [destruct names; discriminate|]. rewrite IH. reflexivity. Qed.
(** The names written to a split file are read back, in order. *)
Theorem split_file_round_trip : forall names, Forall one_line names -> read_split (write_lines names) = names.
Proof.
  intros names F. unfold read_split, splitlines. rewrite no_cr.
  - rewrite split_lines by exact F. apply drop_last.
  - intros I. unfold write_lines in I. apply in_concat in I. destruct I as (l & Il & I). apply in_map_iff in Il. destruct Il as (n & <- & In_).
    apply in_app_or in I. destruct I as [I|[I|[]]]; [|discriminate]. rewrite Forall_forall in F. specialize (F n In_). unfold one_line in F. rewrite Forall_forall in F. specialize (F CR I). discriminate.
Qed.
Print Assumptions split_file_round_trip.
(** Windows and old Mac line ends make no difference. *)
Lemma newlines_app n r : ~ In CR n -> universal_newlines (n ++ r) = n ++ universal_newlines r.
Proof.
  induction n as [|c n IH]; intros N; [reflexivity|]. cbn [app universal_newlines]. destruct (Ascii.eqb_spec c CR) as [->|C]; [exfalso; apply N; left; reflexivity|].
  f_equal. apply IH. intros I. apply N. right. exact I.
Qed.
Lemma line_ends eol names : In eol [[LF]; [CR; LF]; [CR]] -> Forall (fun n => ~ In CR n /\ ~ In LF n) names ->
  universal_newlines (List.concat (map (fun n : text => n ++ eol) names)) = write_lines names.
Proof.
  intros He F. induction F as [|n names [Nc Nl] F IH]; [reflexivity|]. unfold write_lines in *. cbn [map List.concat]. rewrite <- !app_assoc. rewrite newlines_app by exact Nc. f_equal.
  destruct He as [<-|[<-|[<-|[]]]]; cbn [app] in *.
  - change (LF :: universal_newlines (List.concat (map (fun n : text => n ++ [LF]) names)) = LF :: List.concat (map (fun n : text => n ++ [LF]) names)). rewrite IH. reflexivity.
  - change (LF :: universal_newlines (List.concat (map (fun n : text => n ++ [CR; LF]) names)) = LF :: List.concat (map (fun n : text => n ++ [LF]) names)). rewrite IH. reflexivity.
  - rewrite <- IH. set (rest := List.concat _). assert (R : match rest with LF' :: _ => LF' <> LF | [] => True end).
    { unfold rest. destruct F as [|m names [Mc Ml] F]; [exact I|]. cbn [map List.concat]. destruct m as [|a m]; [discriminate|]. cbn [app]. intros ->. apply Ml. left. reflexivity. }
    destruct rest as [|a r]; [reflexivity|]. cbn [universal_newlines]. change (Ascii.eqb CR CR) with true. cbv iota. destruct (Ascii.eqb_spec a LF); [contradiction|]. reflexivity.
Qed.
Theorem split_file_line_ends : forall eol names, In eol [[LF]; [CR; LF]; [CR]] -> Forall one_line names ->
  read_split (List.concat (map (fun n : text => n ++ eol) names)) = names.
Proof.
  intros eol names He F. unfold read_split. rewrite line_ends; [|exact He|].
  - unfold splitlines. rewrite split_lines by exact F. apply drop_last.
  - eapply Forall_impl; [|exact F]. intros n H. unfold one_line in H. rewrite Forall_forall in H. split; intros I; specialize (H _ I); discriminate.
Qed.
Print Assumptions split_file_line_ends.
(** The condition is needed: a name with a line break becomes two names. *)
Theorem split_file_any_name_refuted : ~ (forall names, read_split (write_lines names) = names).
Proof. intros H. specialize (H [lit "a" ++ LF :: lit "b"]). discriminate. Qed.
Print Assumptions split_file_any_name_refuted.
(** The name of a polygon file without its ending. *)
Lemma remove_none pat t : forall fuel, (List.length t <= fuel)%nat -> (forall i, (i < List.length t)%nat -> startswith (skipn i t) pat = false) -> remove_all fuel pat t = t.
Proof.
  induction t as [|c t IH]; intros [|fuel] L H; cbn [remove_all]; try reflexivity. assert (H0 := H 0%nat ltac:(cbn; lia)). cbn [skipn] in H0. rewrite H0.
  f_equal. apply IH; [cbn in L; lia|]. intros i Hi. apply (H (S i)). cbn. lia.
Qed.
Lemma remove_at_end pat stem : pat <> [] -> forall fuel, (List.length (stem ++ pat) <= fuel)%nat -> (forall i, (i < List.length stem)%nat -> startswith (skipn i (stem ++ pat)) pat = false) -> remove_all fuel pat (stem ++ pat) = stem.
Proof.
  intros N. induction stem as [|c stem IH]; intros [|fuel] L H; try (destruct pat; [congruence|cbn in L; lia]).
  - cbn [app] in *. destruct pat as [|a pat]; [congruence|]. cbn [remove_all]. rewrite startswith_refl, skipn_all. destruct fuel; reflexivity.
  - cbn [app remove_all]. assert (H0 := H 0%nat ltac:(cbn; lia)). cbn [skipn app] in H0. rewrite H0. f_equal. apply IH; [cbn in L; lia|]. intros i Hi. apply (H (S i)). cbn. lia.
Qed.
Theorem split_names_are_the_stems : forall stems,
  Forall (fun stem => forall i, (i < List.length stem)%nat -> startswith (skipn i (stem ++ lit "_gtFine_polygons.json")) (lit "_gtFine_polygons.json") = false) stems ->
  split_names (map (fun stem => stem ++ lit "_gtFine_polygons.json") stems) = stems.
Proof.
  intros stems F. unfold split_names. rewrite map_map. rewrite <- (map_id stems) at 2. apply map_ext_in. intros stem I. rewrite Forall_forall in F.
  unfold str_remove. apply remove_at_end; [discriminate|lia|apply F, I].
Qed.
Print Assumptions split_names_are_the_stems.
(** A polygon file without "_gtFine" keeps its full name in the split. *)
Theorem other_polygon_files_keep_their_name : forall p,
  (forall i, (i < List.length p)%nat -> startswith (skipn i p) (lit "_gtFine_polygons.json") = false) -> split_names [p] = [p].
Proof. intros p H. unfold split_names, str_remove. cbn [map]. rewrite remove_none by (solve [lia|exact H]). reflexivity. Qed.
Print Assumptions other_polygon_files_keep_their_name.
Example ex_split : read_split (write_lines (split_names [lit "aachen/aachen_000000_000019_gtFine_polygons.json"; lit "b/b_1_gtCoarse_polygons.json"]))
  = [lit "aachen/aachen_000000_000019"; lit "b/b_1_gtCoarse_polygons.json"].
Proof. reflexivity. Qed.
Example ex_stem : forall i, (i < 27)%nat -> startswith (skipn i (lit "aachen/aachen_000000_000019" ++ lit "_gtFine_polygons.json")) (lit "_gtFine_polygons.json") = false.
Proof. intros i H. do 27 (destruct i as [|i]; [reflexivity|]). lia. Qed.

(** ** C44 *)
(** Distinct inputs with the same first character get the same output name: at most one of the results
    remains, that of the file listed last. *)
Theorem nms_results_collide : forall dir f g c r1 r2, f = c :: r1 -> g = c :: r2 -> nms_results_name dir f = nms_results_name dir g.
Proof. intros dir f g c r1 r2 -> ->. reflexivity. Qed.
Print Assumptions nms_results_collide.
(** The output of a file is named after the first character of its name only. *)
Theorem nms_results_paths : forall dir c r, 97 <= code c <= 122 \/ 65 <= code c <= 90 \/ 48 <= code c <= 57 \/ c = "_"%char ->
  nms_results_name dir (c :: r) = path_join dir (lit "('" ++ [c] ++ lit "', '').png").
Proof.
  intros dir c r H. cbn [nms_results_name]. f_equal. unfold repr_char. destruct (Ascii.eqb_spec c "'") as [->|N1]; [exfalso; vm_compute (code "'") in H; destruct H as [H|[H|[H|H]]]; [lia|lia|lia|discriminate]|].
  destruct (Ascii.eqb_spec c "\") as [->|N2]; [exfalso; vm_compute (code "\") in H; destruct H as [H|[H|[H|H]]]; [lia|lia|lia|discriminate]|].
  assert (R : 48 <= code c <= 122) by (destruct H as [H|[H|[H|H]]]; [lia|lia|lia|rewrite H; vm_compute (code "_"); lia]).
  destruct (Z.eqb_spec (code c) 9); [lia|]. destruct (Z.eqb_spec (code c) 10); [lia|]. destruct (Z.eqb_spec (code c) 13); [lia|].
  replace ((32 <=? code c) && (code c <=? 126) || (161 <=? code c) && negb (code c =? 173)) with true by lia. reflexivity.
Qed.
Print Assumptions nms_results_paths.
Theorem nms_results_distinct_refuted : ~ (forall dir f g, f <> [] -> g <> [] -> f <> g -> nms_results_name dir f <> nms_results_name dir g).
Proof. intros H. apply (H (lit "out") (lit "a1.mat") (lit "a2.mat")); [discriminate|discriminate|discriminate|reflexivity]. Qed.
Print Assumptions nms_results_distinct_refuted.
Theorem nms_results_last_wins : forall dir out files f more s, (forall g, In g more -> nms_results_name dir g <> nms_results_name dir f) ->
  nms_results dir out (files ++ f :: more) s (nms_results_name dir f) = Some (out f).
Proof.
  intros dir out files f more s H. unfold nms_results. rewrite fold_left_app. cbn [fold_left]. generalize (fold_left (fun s f => write (nms_results_name dir f) (out f) s) files s). clear s files. intros s.
  assert (G : forall s, s (nms_results_name dir f) = Some (out f) -> fold_left (fun s f0 => write (nms_results_name dir f0) (out f0) s) more s (nms_results_name dir f) = Some (out f)).
  { clear s. induction more as [|g more IH]; intros s E; [exact E|]. cbn [fold_left]. apply IH; [intros h I; apply H; right; exact I|]. rewrite write_other; [exact E|]. apply H. left. reflexivity. }
  apply G, write_same.
Qed.
Print Assumptions nms_results_last_wins.
(** [splitext] only splits; so [nms_all_results] gives distinct files of the format distinct outputs. *)
Lemma splitext_app p : fst (splitext p) ++ snd (splitext p) = p.
Proof. unfold splitext. destruct (_ && _); cbn [fst snd]; [apply firstn_skipn|apply app_nil_r]. Qed.
Lemma all_name_inj dir f g : startswith (fst (splitext f)) (lit "/") = false -> startswith (fst (splitext g)) (lit "/") = false ->
  snd (splitext f) = snd (splitext g) -> nms_all_name dir f = nms_all_name dir g -> f = g.
Proof.
  intros Hf Hg E N. unfold nms_all_name in N.
  assert (S : forall u, startswith u (lit "/") = false -> startswith (u ++ lit ".png") (lit "/") = false).
  { intros [|c u] H; [reflexivity|]. cbn [startswith lit list_ascii_of_string app] in *. destruct u; exact H. }
  apply join_inj in N; [|apply S, Hf|apply S, Hg]. apply app_inv_tail in N. rewrite <- (splitext_app f), <- (splitext_app g), N, E. reflexivity.
Qed.
Theorem nms_all_results_distinct : forall dir f g, ~ In "/"%char f -> ~ In "/"%char g -> snd (splitext f) = snd (splitext g) -> f <> g -> nms_all_name dir f <> nms_all_name dir g.
Proof.
  intros dir f g Sf Sg E D N. apply D. apply (all_name_inj dir f g); try assumption.
  - destruct (fst (splitext f)) as [|c u] eqn:Ef; [reflexivity|]. cbn [startswith lit list_ascii_of_string]. destruct (Ascii.eqb_spec "/" c) as [<-|]; [exfalso|reflexivity]. apply Sf. rewrite <- (splitext_app f), Ef. left. reflexivity.
  - destruct (fst (splitext g)) as [|c u] eqn:Eg; [reflexivity|]. cbn [startswith lit list_ascii_of_string]. destruct (Ascii.eqb_spec "/" c) as [<-|]; [exfalso|reflexivity]. apply Sg. rewrite <- (splitext_app g), Eg. left. reflexivity.
Qed.
Print Assumptions nms_all_results_distinct.
(** Its effect: every file of the format has its output afterwards, computed from that file unless the
    output existed before; nothing else changes. *)
Lemma all_step dir fmt out files : forall s q, (forall f, In f files -> snd (splitext f) = fmt -> nms_all_name dir f <> q) -> nms_all_results dir fmt out files s q = s q.
Proof.
  unfold nms_all_results. induction files as [|f files IH]; intros s q H; [reflexivity|]. cbn [fold_left]. rewrite IH by (intros g I; apply H; right; exact I).
  destruct (s (nms_all_name dir f)) eqn:E; [reflexivity|]. destruct (text_eqb (snd (splitext f)) fmt) eqn:X; [|reflexivity]. apply text_eqb_spec in X. apply write_other. apply H; [left; reflexivity|exact X].
Qed.
Lemma all_keeps dir fmt out files : forall s q c, s q = Some c -> nms_all_results dir fmt out files s q = Some c.
Proof.
  unfold nms_all_results. induction files as [|f files IH]; intros s q c E; [exact E|]. cbn [fold_left]. apply IH. destruct (s (nms_all_name dir f)) eqn:X; [exact E|].
  destruct (text_eqb (snd (splitext f)) fmt); [|exact E]. rewrite write_other; [exact E|]. intros <-. congruence.
Qed.
Lemma all_app dir fmt out a f b s : nms_all_results dir fmt out (a ++ f :: b) s = nms_all_results dir fmt out b (
  match nms_all_results dir fmt out a s (nms_all_name dir f) with
  | Some _ => nms_all_results dir fmt out a s
  | None => if text_eqb (snd (splitext f)) fmt then write (nms_all_name dir f) (out f) (nms_all_results dir fmt out a s) else nms_all_results dir fmt out a s
  end).
Proof. unfold nms_all_results. rewrite fold_left_app. reflexivity. Qed.
Theorem nms_all_results_effect : forall dir fmt out files s, NoDup files -> (forall f, In f files -> ~ In "/"%char f) ->
  let s' := nms_all_results dir fmt out files s in
  (forall f, In f files -> snd (splitext f) = fmt -> s' (nms_all_name dir f) = match s (nms_all_name dir f) with Some c => Some c | None => Some (out f) end) /\
  (forall q, (forall f, In f files -> snd (splitext f) = fmt -> nms_all_name dir f <> q) -> s' q = s q).
Proof.
  intros dir fmt out files s N S s'. split; [|intros q H; apply all_step, H].
  intros f I E. destruct (s (nms_all_name dir f)) as [c|] eqn:X; [apply all_keeps, X|]. unfold s'.
  apply in_split in I. destruct I as (a & b & ->). rewrite all_app.
  assert (Y : nms_all_results dir fmt out a s (nms_all_name dir f) = None).
  { rewrite all_step; [exact X|]. intros g Ig Eg. apply nms_all_results_distinct; [apply S, in_or_app; left; exact Ig|apply S, in_or_app; right; left; reflexivity|congruence|].
    intros ->. apply NoDup_remove_2 in N. apply N, in_or_app. left. exact Ig. }
  rewrite Y. assert (T : text_eqb (snd (splitext f)) fmt = true) by (apply text_eqb_spec, E). rewrite T.
  apply all_keeps, write_same.
Qed.
Print Assumptions nms_all_results_effect.
(** Hence a second run changes nothing. *)
Theorem nms_all_results_idempotent : forall dir fmt out out' files s, NoDup files -> (forall f, In f files -> ~ In "/"%char f) ->
  forall q, nms_all_results dir fmt out' files (nms_all_results dir fmt out files s) q = nms_all_results dir fmt out files s q.
Proof.
  intros dir fmt out out' files s N S q. set (s1 := nms_all_results dir fmt out files s). assert (A := proj1 (nms_all_results_effect dir fmt out files s N S)). cbv zeta in A. fold s1 in A.
  destruct (nms_all_results_effect dir fmt out' files s1 N S) as [B C]. cbv zeta in B, C.
  destruct (in_dec (list_eq_dec ascii_dec) q (map (nms_all_name dir) (filter (fun f => text_eqb (snd (splitext f)) fmt) files))) as [I|I].
  - apply in_map_iff in I. destruct I as (f & <- & I). apply filter_In in I. destruct I as [I T]. apply text_eqb_spec in T. rewrite (B f I T), (A f I T). destruct (s (nms_all_name dir f)); reflexivity.
  - apply C. intros f If Ef Eq. apply I, in_map_iff. exists f. split; [exact Eq|]. apply filter_In. split; [exact If|apply text_eqb_spec, Ef].
Qed.
Print Assumptions nms_all_results_idempotent.
Example ex_nms_names : nms_results_name (lit "out") (lit "img1.mat") = lit "out/('i', '').png" /\ nms_all_name (lit "out") (lit "img1.v2.mat") = lit "out/img1.v2.png" /\ snd (splitext (lit ".mat")) = [] .
Proof. vm_compute. repeat split. Qed.
Example ex_nms_all : let s := nms_all_results (lit "out") (lit ".mat") (fun f => f) [lit "a.mat"; lit "b.npy"; lit "c.mat"] (fun q => if text_eqb q (lit "out/c.png") then Some (lit "old") else None) in
  s (lit "out/a.png") = Some (lit "a.mat") /\ s (lit "out/b.png") = None /\ s (lit "out/c.png") = Some (lit "old").
Proof. vm_compute. repeat split. Qed.
