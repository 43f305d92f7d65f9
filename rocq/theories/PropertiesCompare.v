(** C65: comparing converted edges with reference files. *)
From Verif Require Import SpecSamples SpecCompare ProofsPaths ProofsText ProofsImage ProofsResults PropertiesResults PropertiesUtils PropertiesFiles PropertiesCLI.
From Coq Require Import Lia ZifyBool ZifyNat.
Open Scope Z_scope.
Open Scope list_scope.

Ltac flat_eq := repeat (rewrite <- !app_assoc; cbn [app]); repeat (rewrite <- app_assoc); cbn [app]; reflexivity.
Lemma mat_suffix : ~ In slash (lit "_gtProc_edge.png") /\ lit "_gtProc_edge.png" <> [] /\ borderless (lit "_gtProc_edge.png") = true.
Proof. split; [vm_compute; intuition discriminate|]. split; [discriminate|reflexivity]. Qed.
Lemma dirname_dir d b : directory d -> ~ In slash b -> dirname (d ++ slash :: b) = d.
Proof.
  intros (N & T) B. destruct d as [|c d] using rev_ind; [congruence|]. apply dirname_app; [|exact B]. intros ->. exact (T d eq_refl).
Qed.
(** *** Theorem 1: the file a reference file is compared with. *)
Theorem compared_with : forall root mat proc split n sfx, directory root -> component mat -> component split -> city_name mat n ->
  ~ occurs mat root -> ~ occurs mat split ->
  ~ occurs (lit "_gtProc_edge.png") root -> ~ occurs (lit "_gtProc_edge.png") proc -> ~ occurs (lit "_gtProc_edge.png") split ->
  test_file (reference_file root mat split n) mat proc (lit "_gtProc_edge.png") sfx = compared_file root proc split n sfx.
Proof.
  intros root mat proc split n sfx Hr Hm Hs (city & base & -> & Hc & Hb & Oc & Sc & Sb) Mr Ms Sr Sp Ss. destruct mat_suffix as (X1 & X2 & X3).
  assert (Dn : directory ((root ++ slash :: mat) ++ slash :: split ++ slash :: city)).
  { replace ((root ++ slash :: mat) ++ slash :: split ++ slash :: city) with (((root ++ slash :: mat) ++ slash :: split) ++ slash :: city) by (rewrite <- !app_assoc; reflexivity). apply directory_join, component_directory, Hc. }
  assert (Bs : ~ In slash (base ++ lit "_gtProc_edge.png")) by (intros I0; apply in_app_or in I0; destruct I0 as [I0|I0]; [apply (proj2 Hb I0)|exact (X1 I0)]).
  assert (E : reference_file root mat split (city ++ lit "/" ++ base) = ((root ++ slash :: mat) ++ slash :: split ++ slash :: city) ++ slash :: (base ++ lit "_gtProc_edge.png")) by (unfold reference_file; flat_eq).
  unfold test_file. rewrite E, dirname_dir, basename_app by assumption.
  assert (Or : ~ occurs mat (split ++ slash :: city)) by (apply occurs_slash; try assumption; apply Hm).
  destruct (unique_component mat (split ++ slash :: city) (proj1 Hm) (proj2 Hm) Or) as [_ U].
  replace ((root ++ slash :: mat) ++ slash :: split ++ slash :: city) with ((root ++ [slash]) ++ mat ++ slash :: (split ++ slash :: city)) by (rewrite <- !app_assoc; reflexivity).
  rewrite str_replace_once by (try apply U; try assumption; apply Hm).
  rewrite join_directory.
  - replace (((root ++ [slash]) ++ proc ++ slash :: split ++ slash :: city) ++ slash :: base ++ lit "_gtProc_edge.png") with ((((root ++ slash :: proc) ++ slash :: split ++ slash :: city) ++ slash :: base) ++ lit "_gtProc_edge.png") by flat_eq.
    rewrite replace_suffix; [unfold compared_file; flat_eq|exact X3|exact X2|]. repeat (apply occurs_slash; try assumption).
  - replace ((root ++ [slash]) ++ proc ++ slash :: split ++ slash :: city) with (((root ++ slash :: proc) ++ slash :: split) ++ slash :: city) by flat_eq. apply directory_join, component_directory, Hc.
  - destruct base as [|c base]; [destruct Hb as [Hb _]; congruence|]. cbn [app relative]. intros ->. apply (proj2 Hb). left. reflexivity.
Qed.
Print Assumptions compared_with.

Lemma unequal_list k bits a b h w (f g : Z -> Z -> Z) : (forall y x, inb h w y x = true -> px 0 a y x = f y x /\ px 0 b y x = g y x /\ wrap bits (f y x) = f y x /\ wrap bits (g y x) = g y x) -> ht a = h -> wd a = w ->
  exists l : list (Z * Z * Z), unequal (wrap bits) a b = Z.of_nat (List.length l) /\ NoDup l /\ forall c y x, In (c, y, x) l <-> c = k /\ inb h w y x = true /\ f y x <> g y x.
Proof.
  intros H Eh Ew. unfold unequal. rewrite Eh, Ew. set (F := fun p : Z * Z => negb _).
  exists (map (fun p => (k, fst p, snd p)) (filter F (coords h w))). rewrite map_length. split; [reflexivity|]. split.
  - apply FinFun.Injective_map_NoDup; [intros [y x] [y' x'] E; cbn [fst snd] in E; congruence|]. apply NoDup_filter, NoDup_coords.
  - intros c y x. rewrite in_map_iff. split.
    + intros ([y' x'] & E & I0). cbn [fst snd] in E. injection E as <- <- <-. apply filter_In in I0. destruct I0 as [I0 N]. apply in_coords in I0. destruct (H _ _ I0) as (A1 & A2 & A3 & A4).
      unfold F in N. cbn [fst snd] in N. rewrite A1, A2, A3, A4 in N. split; [reflexivity|]. split; [exact I0|]. lia.
    + intros (-> & I0 & N). exists (y, x). split; [reflexivity|]. apply filter_In. split; [apply in_coords; exact I0|]. destruct (H _ _ I0) as (A1 & A2 & A3 & A4). unfold F. cbn [fst snd]. rewrite A1, A2, A3, A4. lia.
Qed.
Lemma wrap8 v : 0 <= v < 256 -> wrap 8 v = v.
Proof. intros H. unfold wrap. apply Z.mod_small. exact H. Qed.
Lemma differences_list a b : alike a b -> bytes a -> bytes b -> exists l, differences (wrap 8) a b = Some (Z.of_nat (List.length l)) /\ differ_in a b l.
Proof.
  intros Al Ba Bb. destruct a as [a|a], b as [b|b]; try destruct Al as [Eh Ew]; try contradiction.
  - unfold differences. rewrite <- Eh, <- Ew, !Nat.eqb_refl. cbn [andb].
    destruct (unequal_list 0 8 a b (ht a) (wd a) (px 0 a) (px 0 b)) as (l & E & N & H); [|reflexivity|reflexivity|].
    { intros y x I0. split; [reflexivity|]. split; [reflexivity|]. split; apply wrap8; [apply (Ba 0 y x)|apply (Bb 0 y x)]; cbn [entry Z.eqb andb]; [rewrite I0|rewrite <- Eh, <- Ew, I0]; reflexivity. }
    rewrite E. exists l. split; [reflexivity|]. split; [exact N|]. intros c y x. rewrite H. cbn [entry]. rewrite <- Eh, <- Ew. destruct (Z.eqb_spec c 0) as [->|Nc]; cbn [andb].
    + destruct (inb (ht a) (wd a) y x); [|split; [intros (_ & X & _); discriminate|congruence]]. split; [intros (_ & _ & X); congruence|]. intros X. split; [reflexivity|]. split; [reflexivity|]. congruence.
    + split; [intros (X & _); contradiction|congruence].
  - unfold differences. rewrite <- Eh, <- Ew, !Nat.eqb_refl. cbn [andb]. set (h := g_h a) in *. set (w := g_w a) in *.
    assert (Ch : forall k (f g : image Z), (forall y x, inb h w y x = true -> 0 <= px 0 f y x < 256 /\ 0 <= px 0 g y x < 256) ->
       exists l : list (Z * Z * Z), unequal (wrap 8) (tab h w (px 0 f)) (tab h w (px 0 g)) = Z.of_nat (List.length l) /\ NoDup l /\ forall c y x, In (c, y, x) l <-> c = k /\ inb h w y x = true /\ px 0 f y x <> px 0 g y x).
    { intros k f g H. apply unequal_list; [|reflexivity|reflexivity]. intros y x I0. rewrite !px_tab, I0. destruct (H y x I0). repeat split; apply wrap8; assumption. }
    destruct (Ch 0 (ch_r a) (ch_r b)) as (l0 & E0 & N0 & H0); [|destruct (Ch 1 (ch_g a) (ch_g b)) as (l1 & E1 & N1 & H1); [|destruct (Ch 2 (ch_b a) (ch_b b)) as (l2 & E2 & N2 & H2)]].
    1:{ intros y x I0. split; [apply (Ba 0 y x)|apply (Bb 0 y x)]; cbn [entry Z.leb Z.compare Z.ltb Z.eqb andb]; [fold h w; rewrite I0|rewrite <- Eh, <- Ew, I0]; reflexivity. }
    1:{ intros y x I0. split; [apply (Ba 1 y x)|apply (Bb 1 y x)]; cbn [entry Z.leb Z.compare Z.ltb Z.eqb andb]; [fold h w; rewrite I0|rewrite <- Eh, <- Ew, I0]; reflexivity. }
    1:{ intros y x I0. split; [apply (Ba 2 y x)|apply (Bb 2 y x)]; cbn [entry Z.leb Z.compare Z.ltb Z.eqb andb]; [fold h w; rewrite I0|rewrite <- Eh, <- Ew, I0]; reflexivity. }
    rewrite E0, E1, E2. exists (l0 ++ l1 ++ l2). split; [rewrite !app_length; f_equal; lia|]. split.
    + apply NoDup_app_intro; [exact N0| |].
      * apply NoDup_app_intro; [exact N1|exact N2|]. intros [[c y] x] I1 I2. apply H1 in I1. apply H2 in I2. lia.
      * intros [[c y] x] I0 I1. apply H0 in I0. apply in_app_or in I1. destruct I1 as [I1|I1]; [apply H1 in I1|apply H2 in I1]; lia.
    + intros c y x. rewrite !in_app_iff, H0, H1, H2. cbn [entry]. rewrite <- Eh, <- Ew. fold h w. destruct (inb h w y x); [rewrite !andb_true_r|rewrite !andb_false_r; split; [intros [(_ & X & _)|[(_ & X & _)|(_ & X & _)]]; discriminate|congruence]].
      assert (K : forall f g : image Z, Some (px 0 f y x) <> Some (px 0 g y x) <-> px 0 f y x <> px 0 g y x) by (intros f g; split; intros X Y; apply X; congruence).
      destruct (Z.eq_dec c 0) as [->|C0]; [|destruct (Z.eq_dec c 1) as [->|C1]; [|destruct (Z.eq_dec c 2) as [->|C2]]].
      * change ((0 <=? 0) && (0 <? 3)) with true. cbv iota. change (0 =? 0) with true. cbv iota. rewrite K. clear. intuition lia.
      * change ((0 <=? 1) && (1 <? 3)) with true. cbv iota. change (1 =? 0) with false. change (1 =? 1) with true. cbv iota. rewrite K. clear. intuition lia.
      * change ((0 <=? 2) && (2 <? 3)) with true. cbv iota. change (2 =? 0) with false. change (2 =? 1) with false. cbv iota. rewrite K. clear. intuition lia.
      * replace ((0 <=? c) && (c <? 3)) with false by lia. split; [lia|congruence].
Qed.
Lemma no_difference a b l : differ_in a b l -> (l = [] <-> identical a b).
Proof.
  intros [_ H]. split.
  - intros -> c y x. assert (X := H c y x). cbn [In] in X. destruct (entry a c y x) as [v|], (entry b c y x) as [v'|]; try (exfalso; apply X; discriminate); [|reflexivity].
    destruct (Z.eq_dec v v') as [->|N]; [reflexivity|]. exfalso. apply X. congruence.
  - intros I0. destruct l as [|[[c y] x] l]; [reflexivity|]. exfalso. apply (H c y x); [left; reflexivity|apply I0].
Qed.
(** *** Theorem 2: comparing two files counts the entries that differ; "equal" means that no entry differs. *)
Theorem compare_one : forall mixed d f orig_dir test_dir orig_suffix test_suffix q a b,
  f = q ++ lit "_gtProc_edge.png" -> d f = Some a -> d (test_file f orig_dir test_dir orig_suffix test_suffix) = Some b -> alike a b -> bytes a -> bytes b ->
  exists l equal, test_edges mixed d f orig_dir test_dir orig_suffix test_suffix = Ok (f, Z.of_nat (List.length l), equal) /\ differ_in a b l /\ (equal = true <-> identical a b).
Proof.
  intros mixed d f od td os ts q a b Ef Da Db Al Ba Bb. destruct (differences_list a b Al Ba Bb) as (l & E & D). exists l, (Z.of_nat (List.length l) =? 0).
  unfold test_edges. cbv zeta. rewrite Db, Da, E.
  replace (snd (splitext f)) with (lit ".png"). 2:{ rewrite Ef. change (lit "_gtProc_edge.png") with (lit "_gtProc_edge" ++ "."%char :: lit "png"). rewrite splitext_any; [reflexivity| | | |]; try (vm_compute; intuition discriminate). exists "_"%char. split; [left; reflexivity|discriminate]. }
  split; [reflexivity|]. split; [exact D|]. rewrite <- (no_difference a b l D). destruct l; cbn [List.length]; split; (lia || discriminate || reflexivity).
Qed.
Print Assumptions compare_one.
Lemma report_app l : forall acc, fold_left (fun (r : list (text * Z) * Z) (x : text * Z * bool) => let '(f, diff, equal) := x in ((if 3 <? diff then fst r ++ [(f, diff)] else fst r), if equal : bool then snd r else snd r + 1)) l acc =
  (fst acc ++ filter (fun x => 3 <? snd x) (map fst l), snd acc + Z.of_nat (List.length (filter (fun x => negb (snd x)) l))).
Proof.
  induction l as [|[[f k] e] l IH]; intros [pr m]; cbn [fold_left map filter fst snd List.length].
  - rewrite app_nil_r, Z.add_0_r. reflexivity.
  - rewrite IH. cbn [fst snd]. f_equal.
    + destruct (3 <? k); [rewrite <- app_assoc; reflexivity|reflexivity].
    + destruct e; cbn [negb List.length]; lia.
Qed.
Lemma split_paths root mat proc split n sfx : good_layout root mat proc -> split = lit "train" \/ split = lit "val" -> city_name mat n ->
  path_join (path_join (path_join root mat) split) (n ++ lit "_gtProc_edge.png") = reference_file root mat split n /\
  test_file (reference_file root mat split n) mat proc (lit "_gtProc_edge.png") sfx = compared_file root proc split n sfx.
Proof.
  intros (Hr & Hm & Hp & Mr & Mt & Mv & Sr & Sp) Hs Hn.
  assert (Cs : component split) by (destruct Hs as [-> | ->]; (split; [discriminate|vm_compute; intuition discriminate])).
  assert (Os : ~ occurs mat split) by (destruct Hs as [-> | ->]; assumption).
  assert (Ss : ~ occurs (lit "_gtProc_edge.png") split).
  { intros (x & y & E). assert (L := f_equal (@List.length ascii) E). rewrite !app_length in L. destruct Hs as [-> | ->]; cbn in L; lia. }
  split; [|apply compared_with; assumption].
  rewrite (join_directory root mat) by (try assumption; apply component_relative, Hm).
  rewrite (join_directory (root ++ slash :: mat) split) by (first [apply directory_join, component_directory, Hm|apply component_relative, Cs]).
  rewrite join_directory.
  - unfold reference_file. flat_eq.
  - apply directory_join, component_directory, Cs.
  - destruct Hn as (city & base & -> & Hc & _). destruct city as [|c city]; [destruct Hc as [Hc _]; congruence|]. cbn [app relative]. intros ->. apply (proj2 Hc). left. reflexivity.
Qed.
Lemma split_compared mixed d root mat proc split sfx names : good_layout root mat proc -> split = lit "train" \/ split = lit "val" ->
  (forall n, In n names -> city_name mat n /\ comparable d root mat proc split sfx n) ->
  exists printed misses, compare_split mixed d root mat proc sfx split (map (fun n => n ++ lit "_gtProc_edge.png") names) = Ok (printed, misses) /\ split_report d root mat proc split sfx names printed misses.
Proof.
  intros Lay Hs H. unfold compare_split.
  assert (X : exists ks es, mapM (fun n => test_edges mixed d (path_join (path_join (path_join root mat) split) n) mat proc (lit "_gtProc_edge.png") sfx) (map (fun n => n ++ lit "_gtProc_edge.png") names)
     = Ok (combine (combine (map (reference_file root mat split) names) ks) es) /\
     Forall2 (fun n k => exists a b l, d (reference_file root mat split n) = Some a /\ d (compared_file root proc split n sfx) = Some b /\ differ_in a b l /\ k = Z.of_nat (List.length l)) names ks /\ es = map (fun k => k =? 0) ks).
  { induction names as [|n names IH]; [exists [], []; repeat split; constructor|]. destruct IH as (ks & es & E & F & Es); [intros m Hm; apply H; right; exact Hm|].
    destruct (H n (or_introl eq_refl)) as (Cn & a & b & Da & Db & Al & Ba & Bb). destruct (split_paths root mat proc split n sfx Lay Hs Cn) as (P1 & P2).
    destruct (differences_list a b Al Ba Bb) as (l & El & Dl).
    destruct (compare_one mixed d (reference_file root mat split n) mat proc (lit "_gtProc_edge.png") sfx (root ++ lit "/" ++ mat ++ lit "/" ++ split ++ lit "/" ++ n) a b) as (l' & eq & E1 & D1 & Q1); [unfold reference_file; flat_eq|exact Da|rewrite P2; exact Db|exact Al|exact Ba|exact Bb|].
    exists (Z.of_nat (List.length l') :: ks), ((Z.of_nat (List.length l') =? 0) :: es). cbn [map mapM combine]. rewrite P1, E1. cbn [bind]. rewrite E. cbn [bind]. split; [|split].
    - assert (eq = (Z.of_nat (List.length l') =? 0)) as ->; [|reflexivity]. assert (Z := no_difference a b l' D1). destruct l' as [|x l'], eq; cbn [List.length]; try reflexivity.
      + exfalso. assert (false = true) by (apply Q1, Z; reflexivity). discriminate.
      + exfalso. assert (x :: l' = []) by (apply Z, Q1; reflexivity). discriminate.
    - constructor; [|exact F]. exists a, b, l'. auto.
    - rewrite Es. reflexivity. }
  destruct X as (ks & es & E & F & ->). cbv zeta. rewrite E. cbn [bind]. unfold report. rewrite report_app. cbn [fst snd app]. eexists. eexists. split; [reflexivity|]. exists ks. split; [exact F|].
  assert (L : List.length (combine (map (reference_file root mat split) names) ks) = List.length ks).
  { rewrite combine_length, map_length. clear - F. induction F; cbn [List.length]; lia. }
  split.
  - f_equal. clear - L. generalize dependent (combine (map (reference_file root mat split) names) ks). induction ks as [|k ks IH]; intros [|x c] L; try discriminate; [reflexivity|].
    cbn [map combine fst]. rewrite IH; [reflexivity|]. injection L as L. exact L.
  - f_equal. clear - L. generalize dependent (combine (map (reference_file root mat split) names) ks). induction ks as [|k ks IH]; intros [|x c] L; try discriminate; [reflexivity|].
    injection L as L. cbn [map combine filter snd]. specialize (IH c L). destruct (k =? 0); cbn [negb List.length]; lia.
Qed.
(** *** Theorem 3: the whole comparison (PNG files): for each split, the files with more than three different
    entries are printed in order, with their numbers, and then the number of files that are not identical. *)
Theorem comparison_run : forall mixed d proc mat root train val, good_layout root mat proc ->
  (forall n, In n train -> city_name mat n /\ comparable d root mat proc (lit "train") (lit "_gtProc_edge.png") n) ->
  (forall n, In n val -> city_name mat n /\ comparable d root mat proc (lit "val") (lit "_gtProc_raw_edge.png") n) ->
  exists pt mt pv mv,
    test_against_matlab mixed d proc mat root false (lit "png") (map (fun n => n ++ lit "_gtProc_edge.png") train) (map (fun n => n ++ lit "_gtProc_edge.png") val) = ([(pt, mt); (pv, mv)], Ok tt) /\
    split_report d root mat proc (lit "train") (lit "_gtProc_edge.png") train pt mt /\
    split_report d root mat proc (lit "val") (lit "_gtProc_raw_edge.png") val pv mv.
Proof.
  intros mixed d proc mat root train val Lay Ht Hv.
  destruct (split_compared mixed d root mat proc (lit "train") (lit "_gtProc_edge.png") train Lay (or_introl eq_refl) Ht) as (pt & mt & Et & Rt).
  destruct (split_compared mixed d root mat proc (lit "val") (lit "_gtProc_raw_edge.png") val Lay (or_intror eq_refl) Hv) as (pv & mv & Ev & Rv).
  exists pt, mt, pv, mv. split; [|auto]. unfold test_against_matlab. change (lit "_gtProc_edge." ++ lit "png") with (lit "_gtProc_edge.png"). rewrite Et, Ev. reflexivity.
Qed.
Print Assumptions comparison_run.
(** *** Theorem 4: no misses means that all files are identical, and then nothing is printed. *)
Theorem no_misses : forall d root mat proc split sfx names printed misses, split_report d root mat proc split sfx names printed misses ->
  0 <= misses <= Z.of_nat (List.length names) /\ (misses = 0 -> printed = []) /\
  (misses = 0 <-> forall n a b, In n names -> d (reference_file root mat split n) = Some a -> d (compared_file root proc split n sfx) = Some b -> identical a b).
Proof.
  intros d root mat proc split sfx names printed misses (ks & F & -> & ->).
  assert (Z : Z.of_nat (List.length (filter (fun k => negb (k =? 0)) ks)) = 0 <-> forall k, In k ks -> k = 0).
  { clear. induction ks as [|k ks IH]; cbn [filter List.length In]; [split; [intros _ k []|reflexivity]|]. destruct (Z.eqb_spec k 0) as [->|N]; cbn [negb List.length].
    - rewrite IH. split; [intros H x [<-|X]; auto|intros H x X; apply H; right; exact X].
    - split; [lia|]. intros H. destruct N. apply H. left. reflexivity. }
  split; [|split].
  - split; [lia|]. assert (X : List.length names = List.length ks) by (clear - F; induction F; cbn [List.length]; lia). rewrite X. clear. induction ks as [|k ks IH]; cbn [filter List.length]; [lia|]. destruct (negb (k =? 0)); cbn [List.length]; lia.
  - intros M. rewrite Z in M. clear - M. set (r := map _ names). clearbody r. revert r. induction ks as [|k ks IH]; intros [|x r]; try reflexivity. cbn [combine filter snd]. rewrite (M k (or_introl eq_refl)). change (3 <? 0) with false. cbv iota. apply IH. intros k' H. apply M. right. exact H.
  - rewrite Z. clear Z. induction F as [|n k names ks (a & b & l & Da & Db & Dl & ->) F IH]; [split; [intros _ n a b []|intros _ k []]|]. split.
    + intros H n' a' b' [<-|Hn] Da' Db'.
      * assert (a' = a) by congruence. assert (b' = b) by congruence. subst. apply (no_difference a b l Dl). specialize (H _ (or_introl eq_refl)). destruct l; [reflexivity|cbn [List.length] in H; lia].
      * apply (proj1 IH) with (n := n'); try assumption. intros k Hk. apply H. right. exact Hk.
    + intros H k [<-|Hk].
      * assert (X : l = []) by (apply (no_difference a b l Dl); apply (H n a b (or_introl eq_refl) Da Db)). rewrite X. reflexivity.
      * apply (proj2 IH); [|exact Hk]. intros m a' b' Hm. apply H. right. exact Hm.
Qed.
Print Assumptions no_misses.
(** *** Theorem 5: a file that is missing on either side stops the comparison. *)
Lemma mapM_app_err {A B} (f : A -> res B) l x r e : (forall y, In y l -> exists z, f y = Ok z) -> f x = Err e -> mapM f (l ++ x :: r) = Err e.
Proof.
  intros H E. induction l as [|y l IH]; cbn [app mapM].
  - rewrite E. reflexivity.
  - destruct (H y (or_introl eq_refl)) as (z & ->). cbn [bind]. rewrite IH; [reflexivity|]. intros w Hw. apply H. right. exact Hw.
Qed.
Theorem missing_file_stops_comparison : forall mixed d proc mat root ext train val l n r, good_layout root mat proc ->
  (forall m, In m (l ++ [n]) -> city_name mat m) -> ext = lit "png" ->
  let names l := map (fun n => n ++ lit "_gtProc_edge.png") l in
  (train = l ++ n :: r -> (forall m, In m l -> comparable d root mat proc (lit "train") (lit "_gtProc_edge.png") m) ->
   d (reference_file root mat (lit "train") n) = None \/ d (compared_file root proc (lit "train") n (lit "_gtProc_edge.png")) = None ->
   test_against_matlab mixed d proc mat root false ext (names train) (names val) = ([], Err FileNotFoundError)) /\
  (val = l ++ n :: r -> (forall m, In m l -> comparable d root mat proc (lit "val") (lit "_gtProc_raw_edge.png") m) ->
   (forall m, In m train -> city_name mat m /\ comparable d root mat proc (lit "train") (lit "_gtProc_edge.png") m) ->
   d (reference_file root mat (lit "val") n) = None \/ d (compared_file root proc (lit "val") n (lit "_gtProc_raw_edge.png")) = None ->
   exists pt mt, test_against_matlab mixed d proc mat root false ext (names train) (names val) = ([(pt, mt)], Err FileNotFoundError) /\ split_report d root mat proc (lit "train") (lit "_gtProc_edge.png") train pt mt).
Proof.
  intros mixed d proc mat root ext train val l n r Lay Hn -> names.
  assert (K : forall split sfx, split = lit "train" \/ split = lit "val" -> (forall m, In m l -> comparable d root mat proc split sfx m) ->
    d (reference_file root mat split n) = None \/ d (compared_file root proc split n sfx) = None -> compare_split mixed d root mat proc sfx split (names (l ++ n :: r)) = Err FileNotFoundError).
  { intros split sfx Hs Hl Miss. unfold compare_split, names. rewrite map_app. cbn [map]. erewrite mapM_app_err; [reflexivity| |].
    - intros y Hy. apply in_map_iff in Hy. destruct Hy as (m & <- & Hm). destruct (split_paths root mat proc split m sfx Lay Hs) as (P1 & P2); [apply Hn, in_or_app; left; exact Hm|]. rewrite P1.
      destruct (Hl m Hm) as (a & b & Da & Db & Al & Ba & Bb).
      destruct (compare_one mixed d (reference_file root mat split m) mat proc (lit "_gtProc_edge.png") sfx (root ++ lit "/" ++ mat ++ lit "/" ++ split ++ lit "/" ++ m) a b) as (l' & eq & E1 & _); [unfold reference_file; flat_eq|exact Da|rewrite P2; exact Db|exact Al|exact Ba|exact Bb|]. eauto.
    - destruct (split_paths root mat proc split n sfx Lay Hs) as (P1 & P2); [apply Hn, in_or_app; right; left; reflexivity|]. rewrite P1. unfold test_edges. cbv zeta. rewrite P2.
      replace (snd (splitext (reference_file root mat split n))) with (lit ".png").
      + cbn. destruct Miss as [-> | ->]; [reflexivity|]. destruct (d (reference_file root mat split n)); reflexivity.
      + unfold reference_file. replace (root ++ lit "/" ++ mat ++ lit "/" ++ split ++ lit "/" ++ n ++ lit "_gtProc_edge.png") with ((root ++ lit "/" ++ mat ++ lit "/" ++ split ++ lit "/" ++ n) ++ lit "_gtProc_edge" ++ "."%char :: lit "png") by flat_eq.
        rewrite splitext_any; [reflexivity| | | |]; try (vm_compute; intuition discriminate). exists "_"%char. split; [left; reflexivity|discriminate]. }
  unfold test_against_matlab. change (lit "_gtProc_edge." ++ lit "png") with (lit "_gtProc_edge.png"). split.
  - intros -> Hl Miss. rewrite K by (auto; left; reflexivity). reflexivity.
  - intros -> Hl Ht Miss. destruct (split_compared mixed d root mat proc (lit "train") (lit "_gtProc_edge.png") train Lay (or_introl eq_refl) Ht) as (pt & mt & Et & Rt). fold (names train) in Et. rewrite Et.
    rewrite K by (auto; right; reflexivity). eauto.
Qed.
Print Assumptions missing_file_stops_comparison.
(** *** Theorem 6: instance-sensitive edges are refused. *)
Theorem instance_comparison_refused : forall mixed d proc mat root ext train val, test_against_matlab mixed d proc mat root true ext train val = ([], Err AssertionError).
Proof. reflexivity. Qed.
(** *** Theorem 7: converted TIFF files are compared as if they were PNG files: every training file is a miss,
    whatever it holds (or numpy raises an exception). *)
Theorem tif_files_all_miss : forall mixed d proc mat root train val printed rest o, good_layout root mat proc ->
  (forall n, In n train -> city_name mat n /\ (exists a, d (reference_file root mat (lit "train") n) = Some (Colour a)) /\ exists b, d (compared_file root proc (lit "train") n (lit "_gtProc_edge.tif")) = Some (Gray b)) ->
  test_against_matlab mixed d proc mat root false (lit "tif") (map (fun n => n ++ lit "_gtProc_edge.png") train) val = (printed :: rest, o) -> snd printed = Z.of_nat (List.length train).
Proof.
  intros mixed d proc mat root train val printed rest o Lay H E. unfold test_against_matlab in E. change (lit "_gtProc_edge." ++ lit "tif") with (lit "_gtProc_edge.tif") in E.
  destruct (compare_split mixed d root mat proc (lit "_gtProc_edge.tif") (lit "train") _) as [t|e] eqn:Et; [|discriminate].
  assert (t = printed) as <- by (destruct (compare_split _ _ _ _ _ _ _ _) in E; injection E as <- _ _; reflexivity). clear E.
  unfold compare_split in Et. cbv zeta in Et.
  assert (X : forall l rs, incl l train -> mapM (fun n => test_edges mixed d (path_join (path_join (path_join root mat) (lit "train")) n) mat proc (lit "_gtProc_edge.png") (lit "_gtProc_edge.tif")) (map (fun n => n ++ lit "_gtProc_edge.png") l) = Ok rs ->
    List.length rs = List.length l /\ forall x, In x rs -> snd x = false).
  { induction l as [|n l IH]; intros rs Sub E; cbn [map mapM] in E; [injection E as <-; split; [reflexivity|intros x []]|].
    destruct (H n (Sub n (or_introl eq_refl))) as (Cn & (a & Da) & b & Db). destruct (split_paths root mat proc (lit "train") n (lit "_gtProc_edge.tif") Lay (or_introl eq_refl) Cn) as (P1 & P2).
    rewrite P1 in E. unfold test_edges at 1 in E. cbv zeta in E. rewrite P2, Da, Db in E. cbn [differences] in E.
    match type of E with bind ?r0 _ = _ => destruct r0 as [x|e0] eqn:Ex; [|discriminate] end. cbn [bind] in E. match type of E with bind ?r0 _ = _ => destruct r0 as [rs'|] eqn:Er; [|discriminate] end. cbn [bind] in E. injection E as <-.
    destruct (IH rs' ltac:(intros m Hm; apply Sub; right; exact Hm) eq_refl) as (L & Fx). split; [cbn [List.length]; lia|]. intros y [<-|Hy]; [|auto].
    clear - Ex. destruct (text_eqb _ (lit ".png")); [|destruct (text_eqb _ (lit ".tif")); [|discriminate]]; (destruct (mixed (Colour a) (Gray b)); [|discriminate]; injection Ex as <-; reflexivity). }
  match type of Et with bind ?r0 _ = _ => destruct r0 as [rs|] eqn:Er; [|discriminate] end. cbn [bind] in Et. injection Et as <-. destruct (X train rs (incl_refl _) Er) as (L & Fx). unfold report. rewrite report_app. cbn [fst snd]. rewrite <- L. clear - Fx.
  rewrite Z.add_0_l. f_equal. induction rs as [|x rs IH]; [reflexivity|]. cbn [filter]. rewrite (Fx x (or_introl eq_refl)). cbn [negb List.length]. f_equal. apply IH. intros y Hy. apply Fx. right. exact Hy.
Qed.
Print Assumptions tif_files_all_miss.

(** ** The hypotheses are met *)
Definition small (v : Z) : picture := Colour (mkRGB 2 2 (tab 2 2 (fun y x => v * y)) (tab 2 2 (fun _ x => x)) (tab 2 2 (fun _ _ => v))).
Definition cmp_disk : disk := fun p =>
  if text_eqb p (lit "/cs/gtProc/train/ulm/a_gtProc_edge.png") then Some (small 1) else
  if text_eqb p (lit "/cs/gtEval/train/ulm/a_gtProc_edge.png") then Some (small 2) else
  if text_eqb p (lit "/cs/gtProc/val/bonn/b_gtProc_edge.png") then Some (small 3) else
  if text_eqb p (lit "/cs/gtEval/val/bonn/b_gtProc_raw_edge.png") then Some (small 3) else None.
Lemma small_bytes v : 0 <= v < 100 -> bytes (small v).
Proof.
  intros Hv c y x w E. unfold small, entry in E. destruct ((0 <=? c) && (c <? 3) && inb (g_h _) (g_w _) y x) eqn:B; [|discriminate]. injection E as <-. cbn [g_h g_w] in B.
  apply andb_true_iff in B. destruct B as [_ B]. cbn [ch_r ch_g ch_b]. assert (I0 := B). unfold inb in I0. destruct (c =? 0); [|destruct (c =? 1)]; rewrite px_tab, B; nia.
Qed.
Lemma no_occ (pat t : text) : existsb (fun i => startswith (skipn i t) pat) (seq 0 (S (List.length t))) = false -> ~ occurs pat t.
Proof.
  intros E (a & b & ->). assert (X : existsb (fun i => startswith (skipn i (a ++ pat ++ b)) pat) (seq 0 (S (List.length (a ++ pat ++ b)))) = true); [|congruence].
  apply existsb_exists. exists (List.length a). split; [apply in_seq; rewrite !app_length; lia|]. rewrite skipn_app, skipn_all, Nat.sub_diag. cbn [skipn app]. apply startswith_spec. eauto.
Qed.
Example ex_comparison : good_layout (lit "/cs") (lit "gtProc") (lit "gtEval") /\
  (city_name (lit "gtProc") (lit "ulm/a") /\ comparable cmp_disk (lit "/cs") (lit "gtProc") (lit "gtEval") (lit "train") (lit "_gtProc_edge.png") (lit "ulm/a")) /\
  (city_name (lit "gtProc") (lit "bonn/b") /\ comparable cmp_disk (lit "/cs") (lit "gtProc") (lit "gtEval") (lit "val") (lit "_gtProc_raw_edge.png") (lit "bonn/b")) /\
  test_against_matlab (fun _ _ => Err ValueError) cmp_disk (lit "gtEval") (lit "gtProc") (lit "/cs") false (lit "png") [lit "ulm/a_gtProc_edge.png"] [lit "bonn/b_gtProc_edge.png"]
    = ([([(lit "/cs/gtProc/train/ulm/a_gtProc_edge.png", 6)], 1); ([], 0)], Ok tt).
Proof.
  assert (Co : forall t : text, forallb (fun c => negb (Ascii.eqb c "/")) t = true -> t <> [] -> component t).
  { intros t F N. split; [exact N|]. intros I0. rewrite forallb_forall in F. specialize (F _ I0). discriminate. }
  split; [|split; [|split]].
  - split; [split; [discriminate|intros d E; assert (X := f_equal (fun t => hd "x"%char (rev t)) E); cbv beta in X; rewrite rev_app_distr in X; discriminate X]|]. split; [apply Co; [reflexivity|discriminate]|]. split; [apply Co; [reflexivity|discriminate]|].
    repeat split; apply no_occ; reflexivity.
  - split.
    + exists (lit "ulm"), (lit "a"). split; [reflexivity|]. split; [apply Co; [reflexivity|discriminate]|]. split; [apply Co; [reflexivity|discriminate]|]. repeat split; apply no_occ; reflexivity.
    + exists (small 1), (small 2). split; [reflexivity|]. split; [reflexivity|]. split; [split; reflexivity|]. split; apply small_bytes; lia.
  - split.
    + exists (lit "bonn"), (lit "b"). split; [reflexivity|]. split; [apply Co; [reflexivity|discriminate]|]. split; [apply Co; [reflexivity|discriminate]|]. repeat split; apply no_occ; reflexivity.
    + exists (small 3), (small 3). split; [reflexivity|]. split; [reflexivity|]. split; [split; reflexivity|]. split; apply small_bytes; lia.
  - vm_compute. reflexivity.
Qed.
