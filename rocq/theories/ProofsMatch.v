(** Proofs about the graph construction of match.cc. *)
From Verif Require Export ProofsKofn ProofsCSA ProofsCSA2 ProofsCSA3 ProofsCSA4 SpecMatch.
From Coq Require Import Lqa.
From Coq Require Export FinFun.
Open Scope Z_scope.
Open Scope list_scope.

Lemma NoDup_flat_map {A B} (f : A -> list B) l : NoDup l -> (forall a, In a l -> NoDup (f a)) ->
  (forall a b x, In a l -> In b l -> In x (f a) -> In x (f b) -> a = b) -> NoDup (flat_map f l).
Proof.
  induction l as [|a l IH]; intros D N U; [constructor|]. apply NoDup_cons_iff in D. destruct D as [Da D].
  cbn [flat_map]. apply NoDup_app_intro.
  - apply N. left. reflexivity.
  - apply IH; [exact D|intros b Hb; apply N; right; exact Hb|].
    intros b c x Hb Hc. apply U; right; assumption.
  - intros x X Y. apply in_flat_map in Y. destruct Y as (b & Hb & Y). apply Da.
    rewrite (U a b x); [exact Hb|left; reflexivity|right; exact Hb|exact X|exact Y].
Qed.

Lemma pix_eqb_spec p q : reflect (p = q) (pix_eqb p q).
Proof.
  unfold pix_eqb. destruct p as [a b], q as [c d]. cbn [fst snd].
  destruct (Z.eqb_spec a c) as [->|N]; [|constructor; congruence].
  destruct (Z.eqb_spec b d) as [->|N]; constructor; congruence.
Qed.
Lemma in_colmajor h w p : In p (colmajor h w) <-> inb h w (snd p) (fst p) = true.
Proof.
  destruct p as [x y]. unfold colmajor. rewrite in_flat_map, inb_spec. cbn [fst snd]. split.
  - intros (a & A & B). apply in_map_iff in B. destruct B as (b & E & B). injection E as -> ->.
    apply in_zseq in A. apply in_zseq in B. lia.
  - intros H. exists x. split; [apply in_zseq; lia|]. apply in_map_iff. exists y. split; [reflexivity|apply in_zseq; lia].
Qed.
Lemma NoDup_colmajor h w : NoDup (colmajor h w).
Proof.
  apply NoDup_flat_map; [apply NoDup_zseq| |].
  - intros a _. apply FinFun.Injective_map_NoDup; [|apply NoDup_zseq]. intros x y E. congruence.
  - intros a b x _ _ X Y. apply in_map_iff in X, Y. destruct X as (? & <- & _), Y as (? & E & _). congruence.
Qed.
Lemma in_window r v : In v (window r) <-> - r <= v <= r.
Proof.
  unfold window. rewrite in_map_iff. split.
  - intros (k & <- & K). apply in_zseq in K. lia.
  - intros H. exists (v + r). split; [lia|apply in_zseq; lia].
Qed.
Lemma NoDup_window r : NoDup (window r).
Proof. apply FinFun.Injective_map_NoDup; [|apply NoDup_zseq]. intros a b. lia. Qed.

Lemma Qle_ceiling_Z (z : Z) (q : Q) : (inject_Z z <= q)%Q -> z <= Qceiling q.
Proof.
  intros H. rewrite Zle_Qle. eapply Qle_trans; [exact H|apply Qle_ceiling].
Qed.
Lemma square_le_ceil_sqrt (v : Z) (q : Q) : (inject_Z (v * v) <= q)%Q -> - ceil_sqrt q <= v <= ceil_sqrt q.
Proof.
  intros H. apply Qle_ceiling_Z in H. unfold ceil_sqrt. assert (N := Z.square_nonneg v).
  assert (S := Z.sqrt_up_spec (Qceiling q)). assert (P := Z.sqrt_up_nonneg (Qceiling q)).
  destruct (Z.eq_dec (Qceiling q) 0) as [E|E].
  - rewrite E in *. change (Z.sqrt_up 0) with 0. nia.
  - destruct S as [_ S]; [lia|]. nia.
Qed.

Lemma dist2_sym p q : dist2 p q = dist2 q p. Proof. unfold dist2. ring. Qed.

Section Match.
Variable h w : nat.
Variable b1 b2 : image bool.
Variable md2 oc2 : Q.
Hypothesis W1 : wf b1.
Hypothesis W2 : wf b2.
Hypothesis Eh1 : ht b1 = h.
Hypothesis Ew1 : wd b1 = w.
Hypothesis Eh2 : ht b2 = h.
Hypothesis Ew2 : wd b2 = w.

Notation at1 := (at1 b1).
Notation at2 := (at2 b2).
Definition inimg (p : pixel) : Prop := inb h w (snd p) (fst p) = true.
Definition near (p q : pixel) : Prop := (inject_Z (dist2 p q) <= md2)%Q.

Lemma at1_in p : at1 p = true -> inimg p.
Proof.
  intros H. unfold inimg. destruct (inb h w (snd p) (fst p)) eqn:E; [reflexivity|]. unfold ModelMatch.at1 in H.
  rewrite px_out in H; [discriminate|exact W1|rewrite Eh1, Ew1; exact E].
Qed.
Lemma at2_in p : at2 p = true -> inimg p.
Proof.
  intros H. unfold inimg. destruct (inb h w (snd p) (fst p)) eqn:E; [reflexivity|]. unfold ModelMatch.at2 in H.
  rewrite px_out in H; [discriminate|exact W2|rewrite Eh2, Ew2; exact E].
Qed.

Lemma in_around_vu p q : In q (around_vu h w md2 p) <-> inimg q /\ near p q.
Proof using Type.
  clear W1 W2 Eh1 Ew1 Eh2 Ew2.
  unfold around_vu, inimg, near. destruct p as [x y], q as [x' y']. cbn [fst snd]. unfold dist2. cbn [fst snd].
  rewrite in_flat_map. split.
  - intros (v & Hv & H). rewrite in_flat_map in H. destruct H as (u & Hu & H).
    destruct (Qle_bool (inject_Z (u * u + v * v)) md2) eqn:E; cbn [negb] in H; [|destruct H].
    destruct (inb h w (y + v) (x + u)) eqn:I; [|destruct H]. destruct H as [H|[]]. injection H as <- <-.
    split; [exact I|]. apply Qle_bool_iff in E.
    replace ((x - (x + u)) * (x - (x + u)) + (y - (y + v)) * (y - (y + v))) with (u * u + v * v) by ring. exact E.
  - intros [I E]. set (u := x' - x). set (v := y' - y).
    replace ((x - x') * (x - x') + (y - y') * (y - y')) with (u * u + v * v) in E by (unfold u, v; ring).
    assert (Eu : (inject_Z (u * u) <= md2)%Q).
    { eapply Qle_trans; [|exact E]. rewrite <- Zle_Qle. assert (X := Z.square_nonneg v). lia. }
    assert (Ev : (inject_Z (v * v) <= md2)%Q).
    { eapply Qle_trans; [|exact E]. rewrite <- Zle_Qle. assert (X := Z.square_nonneg u). lia. }
    exists v. split; [apply in_window, square_le_ceil_sqrt; exact Ev|]. apply in_flat_map.
    exists u. split; [apply in_window, square_le_ceil_sqrt; exact Eu|].
    apply Qle_bool_iff in E. rewrite E. cbn [negb]. unfold u, v.
    replace (y + (y' - y)) with y' by ring. replace (x + (x' - x)) with x' by ring. rewrite I. left. reflexivity.
Qed.
Lemma in_around_uv p q : In q (around_uv h w md2 p) <-> inimg q /\ near p q.
Proof using Type.
  clear W1 W2 Eh1 Ew1 Eh2 Ew2.
  rewrite <- in_around_vu. unfold around_uv, around_vu. rewrite !in_flat_map. split; intros (a & Ha & H);
    rewrite in_flat_map in H; destruct H as (b & Hb & H); exists b; (split; [exact Hb|]); apply in_flat_map; exists a; (split; [exact Ha|exact H]).
Qed.
Lemma NoDup_around_uv p : NoDup (around_uv h w md2 p).
Proof using Type.
  clear W1 W2 Eh1 Ew1 Eh2 Ew2.
  assert (X : forall u v (x : pixel), In x (if negb (Qle_bool (inject_Z (u * u + v * v)) md2) then []
    else if inb h w (snd p + v) (fst p + u) then [(fst p + u, snd p + v)] else []) -> x = (fst p + u, snd p + v)).
  { intros u v x. destruct (negb _); [intros []|]. destruct (inb h w _ _); [|intros []]. intros [E|[]]. symmetry. exact E. }
  apply NoDup_flat_map; [apply NoDup_window| |].
  - intros u _. apply NoDup_flat_map; [apply NoDup_window| |].
    + intros v _. destruct (negb _); [constructor|]. destruct (inb h w _ _); [|constructor]. constructor; [intros []|constructor].
    + intros v v' x _ _ A B. apply X in A, B. rewrite A in B. injection B. lia.
  - intros u u' x _ _ A B. apply in_flat_map in A, B. destruct A as (v & _ & A), B as (v' & _ & B). apply X in A, B.
    rewrite A in B. injection B. lia.
Qed.

Lemma in_hits e : In e (hits h w b1 b2 md2) <-> at1 (fst e) = true /\ at2 (snd e) = true /\ near (fst e) (snd e).
Proof.
  destruct e as [p q]. unfold hits. rewrite in_flat_map. cbn [fst snd]. split.
  - intros ((y & x) & Hc & H). cbn [fst snd] in H. destruct (at1 (x, y)) eqn:A; [|destruct H].
    apply in_flat_map in H. destruct H as (q' & Hq & H). destruct (at2 q') eqn:B; [|destruct H].
    destruct H as [H|[]]. injection H as <- <-. split; [exact A|]. split; [exact B|]. apply in_around_vu, Hq.
  - intros (A & B & N). destruct p as [x y]. exists (y, x).
    split; [apply in_coords; exact (at1_in _ A)|]. cbn [fst snd]. rewrite A. apply in_flat_map. exists q.
    split; [apply in_around_vu; split; [apply at2_in, B|exact N]|]. rewrite B. left. reflexivity.
Qed.
Notation matchable1 := (matchable1 h w b1 b2 md2).
Notation matchable2 := (matchable2 h w b1 b2 md2).
Lemma matchable1_spec p : matchable1 p = true <-> at1 p = true /\ exists q, at2 q = true /\ near p q.
Proof.
  unfold ModelMatch.matchable1. rewrite existsb_exists. split.
  - intros (e & H & E). apply in_hits in H. destruct (pix_eqb_spec (fst e) p) as [<-|]; [|discriminate].
    split; [apply H|]. exists (snd e). apply H.
  - intros (A & q & B & N). exists (p, q). split; [apply in_hits; cbn [fst snd]; tauto|].
    cbn [fst]. destruct (pix_eqb_spec p p); [reflexivity|contradiction].
Qed.
Lemma matchable2_spec q : matchable2 q = true <-> at2 q = true /\ exists p, at1 p = true /\ near p q.
Proof.
  unfold ModelMatch.matchable2. rewrite existsb_exists. split.
  - intros (e & H & E). apply in_hits in H. destruct (pix_eqb_spec (snd e) q) as [<-|]; [|discriminate].
    split; [apply H|]. exists (fst e). tauto.
  - intros (A & p & B & N). exists (p, q). split; [apply in_hits; cbn [fst snd]; tauto|].
    cbn [snd]. destruct (pix_eqb_spec q q); [reflexivity|contradiction].
Qed.

Notation nodes1 := (nodes1 h w b1 b2 md2).
Notation nodes2 := (nodes2 h w b1 b2 md2).
Notation n1 := (n1 h w b1 b2 md2).
Notation n2 := (n2 h w b1 b2 md2).
Lemma in_nodes1 p : In p nodes1 <-> matchable1 p = true.
Proof.
  unfold ModelMatch.nodes1. rewrite filter_In, in_colmajor. split; [tauto|]. intros H. split; [|exact H].
  apply matchable1_spec in H. apply at1_in, H.
Qed.
Lemma in_nodes2 p : In p nodes2 <-> matchable2 p = true.
Proof.
  unfold ModelMatch.nodes2. rewrite filter_In, in_colmajor. split; [tauto|]. intros H. split; [|exact H].
  apply matchable2_spec in H. apply at2_in, H.
Qed.
Lemma NoDup_nodes1 : NoDup nodes1. Proof. apply NoDup_filter, NoDup_colmajor. Qed.
Lemma NoDup_nodes2 : NoDup nodes2. Proof. apply NoDup_filter, NoDup_colmajor. Qed.
End Match.

Lemma index_of_in p l d : In p l -> (index_of p l < length l)%nat /\ nth (index_of p l) l d = p.
Proof.
  induction l as [|q l IH]; [intros []|]. cbn [index_of length]. destruct (pix_eqb_spec q p) as [->|N].
  - intros _. split; [lia|reflexivity].
  - intros [E|E]; [contradiction|]. specialize (IH E). cbn [nth]. split; [lia|apply IH].
Qed.
Lemma index_of_nth k l d : NoDup l -> (k < length l)%nat -> index_of (nth k l d) l = k.
Proof.
  intros D H. destruct (index_of_in (nth k l d) l d (nth_In l d H)) as [A B].
  exact (proj1 (NoDup_nth l d) D _ _ A H B).
Qed.

Lemma rint_sqrt_nonneg a : 0 <= rint_sqrt a.
Proof. unfold rint_sqrt. assert (N := Z.sqrt_nonneg a). cbn zeta. destruct (_ <? _); lia. Qed.
Lemma weight_nonneg d : 0 <= weight d. Proof. apply rint_sqrt_nonneg. Qed.
