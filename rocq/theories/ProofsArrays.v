(** Arrays: reads, writes and loops; the stages of [array_match_edge_maps] up to the edges. *)
From Verif Require Import ModelArrays ProofsImage ProofsKofn ProofsMatch ProofsMatch2.
From Coq Require Import Lia ZifyBool ZifyNat.
Open Scope Z_scope.
Open Scope list_scope.

Definition sized {A} (m : arr A) (a b : Z) : Prop :=
  d0 m = a /\ d1 m = b /\ asize m = a * b /\ 0 <= a < 2 ^ 32 /\ 0 <= b < 2 ^ 32 /\ a * b < 2 ^ 32.
Definition tbl {A} (m : arr A) (a b : Z) (f : Z -> Z -> option A) : Prop :=
  sized m a b /\ forall i j, 0 <= i < a -> 0 <= j < b -> acell m (i * b + j) = f i j.

Lemma u32_small z : 0 <= z < 2 ^ 32 -> u32 z = z.
Proof. intros H. apply Z.mod_small. exact H. Qed.
Lemma index_in {A} (m : arr A) a b i j : sized m a b -> 0 <= i < a -> 0 <= j < b -> index m i j = Ok (i * b + j).
Proof.
  intros (E0 & E1 & E2 & A1 & B1 & C) I J. unfold index. rewrite E0, E1, E2, (u32_small i), (u32_small j) by lia.
  cbv zeta. rewrite u32_small by nia. destruct (i <? a) eqn:X; [|lia]. destruct (j <? b) eqn:Y; [|lia]. cbn [negb].
  destruct (i * b + j <? a * b) eqn:Z1; [reflexivity|nia].
Qed.
Lemma index_inj b i j i' j' : 0 <= j < b -> 0 <= j' < b -> i * b + j = i' * b + j' -> i = i' /\ j = j'.
Proof. intros H H' E. assert (i = i') by nia. subst. split; [reflexivity|lia]. Qed.
Lemma rd_tbl {A} (m : arr A) a b f i j v : tbl m a b f -> 0 <= i < a -> 0 <= j < b -> f i j = Some v -> rd m i j = Ok v.
Proof. intros (S1 & T) I J E. unfold rd. rewrite (index_in m a b) by assumption. cbn [bind]. rewrite T, E by assumption. reflexivity. Qed.
Lemma wr_tbl {A} (m : arr A) a b f i j v : tbl m a b f -> 0 <= i < a -> 0 <= j < b ->
  exists m', wr m i j v = Ok m' /\ tbl m' a b (fun i' j' => if (i' =? i) && (j' =? j) then Some v else f i' j').
Proof.
  intros (S1 & T) I J. unfold wr. rewrite (index_in m a b) by assumption. cbn [bind]. eexists. split; [reflexivity|]. split; [exact S1|].
  intros i' j' I' J'. cbn [acell]. destruct (i' * b + j' =? i * b + j) eqn:E.
  - apply Z.eqb_eq, index_inj in E; [|assumption|assumption]. destruct E as [-> ->]. rewrite !Z.eqb_refl. reflexivity.
  - destruct ((i' =? i) && (j' =? j)) eqn:F; [|apply T; assumption]. assert (i' = i /\ j' = j) as [-> ->] by lia. lia.
Qed.
Lemma alloc_tbl {A} a b : 0 <= a < 2 ^ 32 -> 0 <= b < 2 ^ 32 -> a * b < 2 ^ 32 -> tbl (alloc (A := A) a b) a b (fun _ _ => None).
Proof.
  intros I J H. unfold alloc. assert (0 <= a * b) by nia. rewrite !(u32_small a), !(u32_small b), (u32_small (a * b)) by lia.
  split; [repeat split; try lia|]. intros. reflexivity.
Qed.
Lemma init_tbl {A} (m : arr A) a b f v : tbl m a b f -> tbl (init m v) a b (fun _ _ => Some v).
Proof.
  intros (S1 & T). split; [exact S1|]. intros i j I J. destruct S1 as (_ & _ & E & _). unfold init. cbn [acell]. rewrite E.
  replace ((0 <=? i * b + j) && (i * b + j <? a * b)) with true by (symmetry; apply andb_true_iff; split; [apply Z.leb_le|apply Z.ltb_lt]; nia). reflexivity.
Qed.
Lemma tbl_ext {A} (m : arr A) a b f g : tbl m a b f -> (forall i j, 0 <= i < a -> 0 <= j < b -> f i j = g i j) -> tbl m a b g.
Proof. intros (S1 & T) E. split; [exact S1|]. intros i j I J. rewrite T by assumption. apply E; assumption. Qed.

Lemma foldM_inv {A S} (f : A -> S -> res S) (I : list A -> S -> Prop) l s :
  I [] s -> (forall pre x post s, l = pre ++ x :: post -> I pre s -> exists s', f x s = Ok s' /\ I (pre ++ [x]) s') ->
  exists s', foldM f l s = Ok s' /\ I l s'.
Proof.
  intros H0 H. assert (X : forall post pre s, l = pre ++ post -> I pre s -> exists s', foldM f post s = Ok s' /\ I l s').
  { induction post as [|x post IH]; intros pre t E J.
    - rewrite app_nil_r in E. subst pre. exists t. split; [reflexivity|exact J].
    - destruct (H pre x post t E J) as (t' & E1 & J1). cbn [foldM]. rewrite E1. cbn [bind]. apply (IH (pre ++ [x])); [|exact J1].
      rewrite E, <- app_assoc. reflexivity. }
  apply (X l [] s eq_refl H0).
Qed.
Lemma foldM_app {A S} (f : A -> S -> res S) l1 l2 s : foldM f (l1 ++ l2) s = bind (foldM f l1 s) (foldM f l2).
Proof. revert s. induction l1 as [|a l IH]; intros s; [reflexivity|]. cbn. destruct (f a s); [apply IH|reflexivity]. Qed.

Section Match.
Variable h w : nat.
Variable b1 b2 : image bool.
Variable md2 oc2 : Q.
Hypothesis W1 : wf b1.
Hypothesis W2 : wf b2.
Hypothesis Eh1 : ht b1 = h.
Hypothesis Ew1 : wd b1 = w.
Hypothesis Eh2 : ht b2 = h.
Hypothesis Ew2 : wd b2 = w.
Hypothesis Hmd : (0 <= md2)%Q.
Hypothesis Hoc : (md2 < oc2)%Q.
Notation zh := (Z.of_nat h).
Notation zw := (Z.of_nat w).
Hypothesis Hhw : zw * zh < 2 ^ 32.
Hypothesis Hh : zh < 2 ^ 32.
Hypothesis Hw : zw < 2 ^ 32.

Lemma in_cm p : In p (colmajor h w) -> 0 <= fst p < zw /\ 0 <= snd p < zh.
Proof. clear. rewrite in_colmajor, inb_spec. lia. Qed.
Lemma pixels_tbl {A} : tbl (alloc (A := A) zw zh) zw zh (fun _ _ => None).
Proof. clear - Hhw Hh Hw. apply alloc_tbl; lia. Qed.

(** match.cc:50-58 *)
Lemma init_matches_ok : exists m1 m2, init_matches h w = Ok (m1, m2) /\
  tbl m1 zw zh (fun _ _ => Some (-1, -1)) /\ tbl m2 zw zh (fun _ _ => Some (-1, -1)).
Proof.
  clear - Hhw Hh Hw. unfold init_matches.
  destruct (foldM_inv (fun (p : pixel) '(m1, m2) =>
    bind (wr m1 (fst p) (snd p) (-1, -1)) (fun m1 => bind (wr m2 (fst p) (snd p) (-1, -1)) (fun m2 => Ok (m1, m2))))
    (fun pre (s : arr pixel * arr pixel) => exists f1 f2, tbl (fst s) zw zh f1 /\ tbl (snd s) zw zh f2 /\
       forall p, In p pre -> f1 (fst p) (snd p) = Some (-1, -1) /\ f2 (fst p) (snd p) = Some (-1, -1)) (colmajor h w) (alloc zw zh, alloc zw zh)) as ([m1 m2] & E & f1 & f2 & T1 & T2 & F).
  - exists (fun _ _ => None), (fun _ _ => None). cbn [fst snd]. split; [apply pixels_tbl|]. split; [apply pixels_tbl|]. intros p [].
  - intros pre p post [m1 m2] E (f1 & f2 & T1 & T2 & F). cbn [fst snd] in *.
    assert (P : In p (colmajor h w)) by (rewrite E; apply in_or_app; right; left; reflexivity). apply in_cm in P. destruct P as [P Q].
    destruct (wr_tbl m1 zw zh f1 (fst p) (snd p) (-1, -1) T1 P Q) as (m1' & E1 & T1').
    destruct (wr_tbl m2 zw zh f2 (fst p) (snd p) (-1, -1) T2 P Q) as (m2' & E2 & T2').
    exists (m1', m2'). rewrite E1. cbn [bind]. rewrite E2. cbn [bind]. split; [reflexivity|].
    eexists _, _. cbn [fst snd]. split; [exact T1'|]. split; [exact T2'|]. intros q I. cbn beta.
    destruct ((fst q =? fst p) && (snd q =? snd p)) eqn:X; [split; reflexivity|]. apply in_app_or in I. destruct I as [I|[<-|[]]]; [apply F; exact I|].
    rewrite !Z.eqb_refl in X. discriminate.
  - exists m1, m2. split; [exact E|]. cbn [fst snd] in *. split.
    + apply (tbl_ext _ _ _ _ _ T1). intros i j I J. apply (F (i, j)). apply in_colmajor, inb_spec. cbn [fst snd]. lia.
    + apply (tbl_ext _ _ _ _ _ T2). intros i j I J. apply (F (i, j)). apply in_colmajor, inb_spec. cbn [fst snd]. lia.
Qed.

(** match.cc:65-86 *)
Lemma bget_ok b y x : ht b = h -> wd b = w -> inb h w y x = true -> bget b y x = Ok (px false b y x).
Proof. clear. intros A B I. unfold bget. rewrite A, B, I. reflexivity. Qed.
Lemma step_around p (os : list (Z * Z)) :
  flat_map (fun o => if step_ok h w md2 p o then [(fst p + fst o, snd p + snd o)] else []) os =
  flat_map (fun o => if negb (Qle_bool (inject_Z (fst o * fst o + snd o * snd o)) md2) then []
    else if inb h w (snd p + snd o) (fst p + fst o) then [(fst p + fst o, snd p + snd o)] else []) os.
Proof. clear. unfold step_ok. apply flat_map_ext. intros o. destruct (Qle_bool _ _); reflexivity. Qed.
Lemma flat_map_map2 {A B C} (f : A -> B -> list C) la lb :
  flat_map (fun v => flat_map (f v) lb) la = flat_map (fun o => f (snd o) (fst o)) (flat_map (fun v => map (fun u => (u, v)) lb) la).
Proof.
  clear. induction la as [|v la IH]; [reflexivity|]. cbn [flat_map]. rewrite flat_map_app, IH. f_equal.
  clear. induction lb as [|u lb IH]; [reflexivity|]. cbn. rewrite IH. reflexivity.
Qed.
Lemma flat_map_map2' {A B C} (f : A -> B -> list C) la lb :
  flat_map (fun v => flat_map (f v) lb) la = flat_map (fun o => f (fst o) (snd o)) (flat_map (fun v => map (fun u => (v, u)) lb) la).
Proof.
  clear. induction la as [|v la IH]; [reflexivity|]. cbn [flat_map]. rewrite flat_map_app, IH. f_equal.
  clear. induction lb as [|u lb IH]; [reflexivity|]. cbn. rewrite IH. reflexivity.
Qed.
Lemma around_vu_steps p : around_vu h w md2 p = flat_map (fun o => if step_ok h w md2 p o then [(fst p + fst o, snd p + snd o)] else []) (offsets_vu md2).
Proof. clear. rewrite step_around. unfold around_vu, offsets_vu. rewrite flat_map_map2. reflexivity. Qed.
Lemma around_uv_steps p : around_uv h w md2 p = flat_map (fun o => if step_ok h w md2 p o then [(fst p + fst o, snd p + snd o)] else []) (offsets_uv md2).
Proof. clear. rewrite step_around. unfold around_uv, offsets_uv. rewrite flat_map_map2'. reflexivity. Qed.

Definition marked (l : list (pixel * pixel)) (s : arr bool * arr bool) : Prop :=
  tbl (fst s) zw zh (fun x y => Some (existsb (fun e => pix_eqb (fst e) (x, y)) l)) /\
  tbl (snd s) zw zh (fun x y => Some (existsb (fun e => pix_eqb (snd e) (x, y)) l)).
Lemma existsb_snoc {A} (f : A -> bool) l a : existsb f (l ++ [a]) = f a || existsb f l.
Proof. clear. rewrite existsb_app. cbn. rewrite orb_false_r. apply orb_comm. Qed.
Lemma pix_eqb_pair p x y : pix_eqb p (x, y) = (x =? fst p) && (y =? snd p).
Proof. clear. unfold pix_eqb. cbn [fst snd]. rewrite (Z.eqb_sym x), (Z.eqb_sym y). reflexivity. Qed.
Lemma marked_write l k1 k2 p q : marked l (k1, k2) -> inimg h w p -> inimg h w q ->
  exists k1' k2', wr k1 (fst p) (snd p) true = Ok k1' /\ wr k2 (fst q) (snd q) true = Ok k2' /\ marked (l ++ [(p, q)]) (k1', k2').
Proof.
  clear. intros [M1 M2] I J. unfold inimg in I, J. rewrite inb_spec in I, J. cbn [fst snd] in *.
  destruct (wr_tbl _ _ _ _ (fst p) (snd p) true M1) as (k1' & E1 & T1); [lia|lia|].
  destruct (wr_tbl _ _ _ _ (fst q) (snd q) true M2) as (k2' & E2 & T2); [lia|lia|].
  exists k1', k2'. split; [exact E1|]. split; [exact E2|]. split; cbn [fst snd].
  - apply (tbl_ext _ _ _ _ _ T1). intros x y _ _. cbn beta. rewrite existsb_snoc. cbn [fst]. rewrite pix_eqb_pair. destruct (_ && _); reflexivity.
  - apply (tbl_ext _ _ _ _ _ T2). intros x y _ _. cbn beta. rewrite existsb_snoc. cbn [snd]. rewrite pix_eqb_pair. destruct (_ && _); reflexivity.
Qed.
Definition hits_of (p1 : pixel) (l : list pixel) : list (pixel * pixel) := flat_map (fun p2 => if at2 b2 p2 then [(p1, p2)] else []) l.
Lemma mark_ok p o l s : marked l s -> inimg h w p -> exists s', mark h w b2 md2 p o s = Ok s' /\
  marked (l ++ hits_of p (if step_ok h w md2 p o then [(fst p + fst o, snd p + snd o)] else [])) s'.
Proof.
  clear - Eh2 Ew2. intros M I. unfold mark. destruct (step_ok h w md2 p o) eqn:S1; [|exists s; split; [reflexivity|cbn; rewrite app_nil_r; exact M]].
  unfold step_ok in S1. apply andb_true_iff in S1. destruct S1 as [_ S1]. rewrite bget_ok by assumption. cbn [bind hits_of flat_map app].
  unfold at2. cbn [fst snd]. destruct (px false b2 _ _) eqn:B; [|exists s; split; [reflexivity|cbn; rewrite app_nil_r; exact M]].
  destruct s as [k1 k2]. destruct (marked_write l k1 k2 p (fst p + fst o, snd p + snd o) M I S1) as (k1' & k2' & E1 & E2 & M').
  cbn [fst snd] in *. rewrite E1. cbn [bind]. rewrite E2. cbn [bind]. exists (k1', k2'). split; [reflexivity|exact M'].
Qed.
Lemma flat_map_snoc {A B} (f : A -> list B) l a : flat_map f (l ++ [a]) = flat_map f l ++ f a.
Proof. clear. rewrite flat_map_app. cbn. rewrite app_nil_r. reflexivity. Qed.
Lemma scan_ok : exists s, scan h w b1 b2 md2 = Ok s /\ marked (hits h w b1 b2 md2) s.
Proof.
  clear Hmd Hoc W1 W2. unfold scan, hits.
  apply (foldM_inv _ (fun pre s => marked (flat_map (fun p : Z * Z => let p1 := (snd p, fst p) in
    if at1 b1 p1 then flat_map (fun p2 => if at2 b2 p2 then [(p1, p2)] else []) (around_vu h w md2 p1) else []) pre) s)).
  - split; exact (init_tbl (alloc zw zh) zw zh _ false pixels_tbl).
  - intros pre yx post s E M. assert (P : inb h w (fst yx) (snd yx) = true) by (destruct yx as [y x]; apply in_coords; rewrite E; apply in_or_app; right; left; reflexivity).
    rewrite bget_ok by assumption. cbn [bind]. rewrite flat_map_snoc. cbv zeta. unfold at1 at 2. cbn [fst snd].
    destruct (px false b1 (fst yx) (snd yx)) eqn:B; [|exists s; split; [reflexivity|rewrite app_nil_r; exact M]].
    set (l := flat_map _ pre) in *. clearbody l. rewrite around_vu_steps. set (p := (snd yx, fst yx)).
    destruct (foldM_inv (mark h w b2 md2 p) (fun os s => marked (l ++ hits_of p (flat_map (fun o => if step_ok h w md2 p o then [(fst p + fst o, snd p + snd o)] else []) os)) s)
      (offsets_vu md2) s) as (s' & E' & M').
    + cbn. rewrite app_nil_r. exact M.
    + intros os o os' t _ Mt. destruct (mark_ok p o _ t Mt P) as (t' & Et & Mt'). exists t'. split; [exact Et|].
      rewrite flat_map_snoc. unfold hits_of in *. rewrite flat_map_app, app_assoc. exact Mt'.
    + exists s'. split; [exact E'|exact M'].
Qed.

(** match.cc:91-112 *)
Notation nodes1 := (nodes1 h w b1 b2 md2).
Notation nodes2 := (nodes2 h w b1 b2 md2).
Definition numbered (t : arr Z) (v : list pixel) (n : Z) (mt : pixel -> bool) (pre : list pixel) : Prop :=
  v = filter mt pre /\ n = Z.of_nat (length v) /\ exists f, tbl t zw zh f /\
  forall p, In p pre -> f (fst p) (snd p) = Some (if mt p then Z.of_nat (index_of p (filter mt (colmajor h w))) else -1).
Lemma index_of_split (p : pixel) l1 l2 : ~ In p l1 -> index_of p (l1 ++ p :: l2) = length l1.
Proof.
  clear. induction l1 as [|q l1 IH]; intros N; cbn.
  - destruct (pix_eqb_spec p p); [reflexivity|contradiction].
  - destruct (pix_eqb_spec q p) as [->|]; [exfalso; apply N; left; reflexivity|]. rewrite IH; [reflexivity|]. intros I. apply N. right. exact I.
Qed.
Lemma number1_ok k mt f0 t v n pre p post : tbl k zw zh f0 -> (forall p, In p (colmajor h w) -> f0 (fst p) (snd p) = Some (mt p)) ->
  colmajor h w = pre ++ p :: post -> numbered t v n mt pre ->
  exists t' v' n', number1 k p (t, v, n) = Ok (t', v', n') /\ numbered t' v' n' mt (pre ++ [p]).
Proof.
  clear. intros K F E (-> & -> & f & T & G).
  assert (P : In p (colmajor h w)) by (rewrite E; apply in_or_app; right; left; reflexivity).
  assert (F' := F p P). destruct (in_cm p P) as [A B].
  assert (N : ~ In p pre) by (assert (D := NoDup_colmajor h w); rewrite E in D; apply NoDup_remove_2 in D; intros I; apply D; apply in_or_app; left; exact I).
  unfold number1. destruct (wr_tbl t zw zh f (fst p) (snd p) (-1) T A B) as (t1 & E1 & T1). rewrite E1. cbn [bind].
  rewrite (rd_tbl k zw zh f0 _ _ _ K A B F'). cbn [bind]. unfold numbered. rewrite filter_app. cbn [filter]. destruct (mt p) eqn:M.
  - destruct (wr_tbl t1 zw zh _ (fst p) (snd p) (Z.of_nat (length (filter mt pre))) T1 A B) as (t2 & E2 & T2). rewrite E2. cbn [bind].
    eexists _, _, _. split; [reflexivity|]. split; [reflexivity|]. split; [rewrite app_length; cbn; lia|]. eexists. split; [exact T2|].
    intros q I. cbn beta. destruct ((fst q =? fst p) && (snd q =? snd p)) eqn:X.
    + assert (q = p) as -> by (destruct q, p; cbn [fst snd] in *; f_equal; lia). rewrite M. f_equal. f_equal. rewrite E, filter_app. cbn [filter]. rewrite M.
      symmetry. apply index_of_split. intros J. apply N. apply filter_In in J. apply J.
    + apply in_app_or in I. destruct I as [I|[<-|[]]]; [apply G; exact I|]. rewrite !Z.eqb_refl in X. discriminate.
  - eexists _, _, _. split; [reflexivity|]. rewrite app_nil_r. split; [reflexivity|]. split; [reflexivity|]. eexists. split; [exact T1|].
    intros q I. cbn beta. destruct ((fst q =? fst p) && (snd q =? snd p)) eqn:X.
    + assert (q = p) as -> by (destruct q, p; cbn [fst snd] in *; f_equal; lia). rewrite M. reflexivity.
    + apply in_app_or in I. destruct I as [I|[<-|[]]]; [apply G; exact I|]. rewrite !Z.eqb_refl in X. discriminate.
Qed.
Notation m1ble := (matchable1 h w b1 b2 md2).
Notation m2ble := (matchable2 h w b1 b2 md2).
Lemma number_ok k1 k2 : marked (hits h w b1 b2 md2) (k1, k2) -> exists t1 t2,
  number h w k1 k2 = Ok ((t1, nodes1, Z.of_nat (length nodes1)), (t2, nodes2, Z.of_nat (length nodes2))) /\
  tbl t1 zw zh (fun x y => Some (if m1ble (x, y) then Z.of_nat (index_of (x, y) nodes1) else -1)) /\
  tbl t2 zw zh (fun x y => Some (if m2ble (x, y) then Z.of_nat (index_of (x, y) nodes2) else -1)).
Proof.
  clear - Hhw Hh Hw. intros [M1 M2]. cbn [fst snd] in *. unfold number.
  destruct (foldM_inv (fun (p : pixel) '(s1, s2) => bind (number1 k1 p s1) (fun s1 => bind (number1 k2 p s2) (fun s2 => Ok (s1, s2))))
    (fun pre (s : (arr Z * list pixel * Z) * (arr Z * list pixel * Z)) => let '((t1, v1, n1), (t2, v2, n2)) := s in
      numbered t1 v1 n1 m1ble pre /\ numbered t2 v2 n2 m2ble pre) (colmajor h w) ((alloc zw zh, [], 0), (alloc zw zh, [], 0)))
    as ([[[t1 v1] n1] [[t2 v2] n2]] & E & N1 & N2).
  - split; (split; [reflexivity|]); (split; [reflexivity|]); (exists (fun _ _ => None)); (split; [apply pixels_tbl|intros p []]).
  - intros pre p post [[[t1 v1] n1] [[t2 v2] n2]] E [N1 N2].
    destruct (number1_ok k1 m1ble _ t1 v1 n1 pre p post M1) as (t1' & v1' & n1' & E1 & N1'); [intros [x y] _; reflexivity|exact E|exact N1|].
    destruct (number1_ok k2 m2ble _ t2 v2 n2 pre p post M2) as (t2' & v2' & n2' & E2 & N2'); [intros [x y] _; reflexivity|exact E|exact N2|].
    exists ((t1', v1', n1'), (t2', v2', n2')). rewrite E1. cbn [bind]. rewrite E2. cbn [bind]. split; [reflexivity|]. split; assumption.
  - destruct N1 as (-> & -> & f1 & T1 & F1), N2 as (-> & -> & f2 & T2 & F2). exists t1, t2. split; [exact E|]. split.
    + apply (tbl_ext _ _ _ _ _ T1). intros x y I J. apply (F1 (x, y)). apply in_colmajor, inb_spec. cbn [fst snd]. lia.
    + apply (tbl_ext _ _ _ _ _ T2). intros x y I J. apply (F2 (x, y)). apply in_colmajor, inb_spec. cbn [fst snd]. lia.
Qed.

(** match.cc:114-139 *)
Notation n1 := (n1 h w b1 b2 md2).
Notation n2 := (n2 h w b1 b2 md2).
Definition ze (e : nat * nat * Z) : Z * Z * Z := (Z.of_nat (fst (fst e)), Z.of_nat (snd (fst e)), snd e).
Definition edges_of (p1 : pixel) (l : list pixel) : list (nat * nat * Z) :=
  flat_map (fun p2 => if m2ble p2 then [(index_of p1 nodes1, index_of p2 nodes2, dist2 p1 p2)] else []) l.
Lemma edge_step_ok k2 t1 t2 p o es :
  tbl k2 zw zh (fun x y => Some (m2ble (x, y))) ->
  tbl t1 zw zh (fun x y => Some (if m1ble (x, y) then Z.of_nat (index_of (x, y) nodes1) else -1)) ->
  tbl t2 zw zh (fun x y => Some (if m2ble (x, y) then Z.of_nat (index_of (x, y) nodes2) else -1)) ->
  In p (colmajor h w) -> m1ble p = true ->
  edge_step h w md2 oc2 k2 t1 t2 (Z.of_nat n1) (Z.of_nat n2) p o es =
  Ok (es ++ map ze (edges_of p (if step_ok h w md2 p o then [(fst p + fst o, snd p + snd o)] else []))).
Proof.
  intros K T1 T2 P M. unfold edge_step. destruct (step_ok h w md2 p o) eqn:S1; [|cbn; rewrite app_nil_r; reflexivity].
  unfold step_ok in S1. apply andb_true_iff in S1. destruct S1 as [S0 S1]. rewrite inb_spec in S1. apply Qle_bool_iff in S0.
  destruct (in_cm p P) as [A B]. set (q := (fst p + fst o, snd p + snd o)). cbn [edges_of flat_map].
  rewrite (rd_tbl k2 zw zh _ (fst p + fst o) (snd p + snd o) _ K ltac:(lia) ltac:(lia) eq_refl). cbn [bind]. fold q.
  destruct (m2ble q) eqn:Mq; [|cbn; rewrite app_nil_r; reflexivity].
  rewrite (rd_tbl t1 zw zh _ (fst p) (snd p) _ T1 A B eq_refl). cbn [bind].
  rewrite (rd_tbl t2 zw zh _ (fst p + fst o) (snd p + snd o) _ T2 ltac:(lia) ltac:(lia) eq_refl). cbn [bind]. fold q. rewrite <- (surjective_pairing p), M, Mq.
  assert (I1 : (index_of p nodes1 < n1)%nat) by (apply (index_of_in p nodes1 (-1, -1)); apply filter_In; split; assumption).
  assert (I2 : (index_of q nodes2 < n2)%nat).
  { apply (index_of_in q nodes2 (-1, -1)). apply filter_In. split; [|exact Mq]. apply in_colmajor, inb_spec. cbn [fst snd q]. lia. }
  assert (D : dist2 p q = fst o * fst o + snd o * snd o) by (unfold dist2, q; cbn [fst snd]; ring).
  unfold require. replace (_ && Qltb _ _) with true; [rewrite D; reflexivity|]. symmetry. rewrite !andb_true_iff.
  split; [split; [split|split]; lia|]. unfold Qltb. apply negb_true_iff. destruct (Qle_bool oc2 _) eqn:X; [|reflexivity]. apply Qle_bool_iff in X.
  exfalso. apply (Qlt_irrefl md2). eapply Qlt_le_trans; [exact Hoc|]. eapply Qle_trans; [exact X|exact S0].
Qed.
Lemma find_edges_ok k1 k2 t1 t2 : marked (hits h w b1 b2 md2) (k1, k2) ->
  tbl t1 zw zh (fun x y => Some (if m1ble (x, y) then Z.of_nat (index_of (x, y) nodes1) else -1)) ->
  tbl t2 zw zh (fun x y => Some (if m2ble (x, y) then Z.of_nat (index_of (x, y) nodes2) else -1)) ->
  find_edges h w md2 oc2 k1 k2 t1 t2 (Z.of_nat n1) (Z.of_nat n2) = Ok (map ze (real_edges h w b1 b2 md2)).
Proof.
  intros [K1 K2] T1 T2. cbn [fst snd] in *. unfold find_edges.
  destruct (foldM_inv (fun p es => bind (rd k1 (fst p) (snd p)) (fun b => if b then foldM (edge_step h w md2 oc2 k2 t1 t2 (Z.of_nat n1) (Z.of_nat n2) p) (offsets_uv md2) es else Ok es))
    (fun pre es => es = map ze (flat_map (fun p1 => if m1ble p1 then edges_of p1 (around_uv h w md2 p1) else []) pre)) (colmajor h w) []) as (es & E & ->).
  - reflexivity.
  - intros pre p post s E ->. assert (P : In p (colmajor h w)) by (rewrite E; apply in_or_app; right; left; reflexivity).
    destruct (in_cm p P) as [A B]. rewrite (rd_tbl k1 zw zh _ (fst p) (snd p) _ K1 A B eq_refl). cbn [bind]. rewrite <- (surjective_pairing p).
    rewrite flat_map_snoc. change (existsb (fun e => pix_eqb (fst e) p) (hits h w b1 b2 md2)) with (m1ble p).
    destruct (m1ble p) eqn:M; [|eexists; split; [reflexivity|rewrite app_nil_r; reflexivity]].
    match goal with |- context [flat_map ?f pre] => set (l := flat_map f pre) end. clearbody l. rewrite map_app, around_uv_steps.
    destruct (foldM_inv (edge_step h w md2 oc2 k2 t1 t2 (Z.of_nat n1) (Z.of_nat n2) p)
      (fun os es => es = map ze l ++ map ze (edges_of p (flat_map (fun o => if step_ok h w md2 p o then [(fst p + fst o, snd p + snd o)] else []) os)))
      (offsets_uv md2) (map ze l)) as (es & E' & ->).
    + cbn. rewrite app_nil_r. reflexivity.
    + intros os o os' t _ ->. eexists. split; [apply (edge_step_ok k2 t1 t2 p o); assumption|].
      rewrite flat_map_snoc. unfold edges_of. rewrite flat_map_app, map_app, app_assoc. reflexivity.
    + eexists. split; [exact E'|reflexivity].
  - rewrite E. reflexivity.
Qed.
End Match.
