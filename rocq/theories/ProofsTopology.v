(** Guo-Hall passes preserve the topology of every finite pixel set. *)
From Coq Require Import List ZArith Bool Lia ZifyBool.
From Verif Require Import SpecThin.
Import ListNotations.
Open Scope Z_scope.

(** ** Generic facts about [linked] *)
Section Linked.
Variable adj : pixel -> pixel -> Prop.
Hypothesis adj_sym : forall p q, adj p q -> adj q p.

Lemma linked_in_r A p q : linked adj A p q -> A q.
Proof. induction 1; auto. Qed.
Lemma linked_trans A p q r : linked adj A p q -> linked adj A q r -> linked adj A p r.
Proof.
  intros H1 H2; induction H2 as [q Hq|q s r H IH Ha Hr]; [exact H1|].
  eapply linked_step; [apply IH; exact H1|exact Ha|exact Hr].
Qed.
Lemma linked_mono (A B : pset) p q : (forall p, A p -> B p) ->
  linked adj A p q -> linked adj B p q.
Proof. intros H; induction 1; [constructor; auto|eapply linked_step; eauto]. Qed.

(** Removing one pixel [p] whose neighbours in the rest are nonempty and linked. *)
Lemma remove_one (A B : pset) p :
  (forall q, B q <-> A q /\ q <> p) ->
  (forall q r, adj p q -> adj p r -> B q -> B r -> linked adj B q r) ->
  forall u v, B u -> B v -> linked adj A u v -> linked adj B u v.
Proof.
  intros HB Hn u v Hu Hv Huv.
  assert (G : (v <> p -> linked adj B u v) /\
              (v = p -> exists q, adj p q /\ linked adj B u q)).
  { clear Hv; induction Huv as [u Au|u w r H IH Ha Hr].
    - split; [intros _; constructor; auto|]. intros ->. apply HB in Hu. tauto.
    - specialize (IH Hu). destruct IH as [IH1 IH2].
      assert (Dw : w = p \/ w <> p)
        by (destruct w as [a b], p as [c d]; destruct (Z.eq_dec a c); destruct (Z.eq_dec b d);
            [left; congruence|right; congruence|right; congruence|right; congruence]).
      split.
      + intros Hrp. assert (Br : B r) by (apply HB; auto).
        destruct Dw as [->|Dw].
        * destruct (IH2 eq_refl) as (q & Hq & Hl).
          apply linked_trans with q; auto. apply Hn; auto. eapply linked_in_r; eauto.
        * eapply linked_step; eauto.
      + intros ->. destruct Dw as [->|Dw]; [apply IH2; reflexivity|].
        exists w; split; auto. }
  apply G. apply HB in Hv; tauto.
Qed.
End Linked.

Lemma adj8_sym p q : adj8 p q -> adj8 q p.
Proof. unfold adj8; intros (H & H1 & H2); repeat split; [congruence|lia|lia]. Qed.
Lemma adj4_sym p q : adj4 p q -> adj4 q p.
Proof. unfold adj4; lia. Qed.

Lemma tp_refl A : topology_preserved A A.
Proof.
  split; auto; intros p Hp; exists p; split; auto; constructor; auto.
Qed.

Lemma tp_trans A B C : topology_preserved A B -> topology_preserved B C ->
  topology_preserved A C.
Proof.
  intros [a1 a2 a3 a4 a5] [b1 b2 b3 b4 b5]; split.
  - auto.
  - intros p q Hp Hq H. apply b2; auto.
  - intros p Hp. destruct (a3 p Hp) as (q & Hq & Hpq).
    destruct (b3 q Hq) as (r & Hr & Hqr). exists r; split; auto.
    apply linked_trans with q; auto. eapply linked_mono; [|exact Hqr]; auto.
  - intros p q Hp Hq H. apply a4; auto.
  - intros p Hp. destruct (b5 p Hp) as (q & Hq & Hpq).
    destruct (a5 q Hq) as (r & Hr & Hqr). exists r; split; auto.
    apply linked_trans with q; auto. eapply linked_mono; [|exact Hqr].
    intros x Hx Cx; apply Hx; auto.
Qed.

Lemma tp_ext A A' B B' : (forall p, A p <-> A' p) -> (forall p, B p <-> B' p) ->
  topology_preserved A B -> topology_preserved A' B'.
Proof.
  intros HA HB [a1 a2 a3 a4 a5]; split.
  - intros p Hp; apply HA, a1, HB, Hp.
  - intros p q Hp Hq H. apply linked_mono with B; [intros x Hx; apply HB, Hx|].
    apply a2; [apply HB; auto..|]. eapply linked_mono; [|exact H]. intros x Hx; apply HA, Hx.
  - intros p Hp. destruct (a3 p (proj2 (HA p) Hp)) as (q & Hq & H). exists q; split; [apply HB, Hq|].
    eapply linked_mono; [|exact H]. intros x Hx; apply HA, Hx.
  - intros p q Hp Hq H. eapply linked_mono; [|apply (a4 p q)].
    + intros x Hx Cx; apply Hx, HA, Cx.
    + intros C; apply Hp, HA, C.
    + intros C; apply Hq, HA, C.
    + eapply linked_mono; [|exact H]. intros x Hx Cx; apply Hx, HB, Cx.
  - intros p Hp. destruct (a5 p) as (q & Hq & H); [intros C; apply Hp, HB, C|].
    exists q; split; [intros C; apply Hq, HA, C|].
    eapply linked_mono; [|exact H]. intros x Hx Cx; apply Hx, HB, Cx.
Qed.

(** ** The eight neighbours *)
Definition off (k : nat) : pixel :=
  nth k [(0,1); (-1,1); (-1,0); (-1,-1); (0,-1); (1,-1); (1,0); (1,1)] (0,0).
Definition nbr (p : pixel) (k : nat) : pixel := (fst p + fst (off k), snd p + snd (off k)).

Definition ring : list nat := [0;1;2;3;4;5;6;7]%nat.

Lemma in_ring k : In k ring <-> (k < 8)%nat.
Proof. unfold ring; simpl; lia. Qed.

Lemma adj8_nbr p q : adj8 p q <-> exists k, (k < 8)%nat /\ q = nbr p k.
Proof.
  split.
  - destruct p as [a b], q as [c d]; intros (H & H1 & H2); simpl in *.
    assert (Hc : c = a - 1 \/ c = a \/ c = a + 1) by lia.
    assert (Hd : d = b - 1 \/ d = b \/ d = b + 1) by lia.
    destruct Hc as [Hc|[Hc|Hc]], Hd as [Hd|[Hd|Hd]]; subst c d;
    [exists 3%nat|exists 2%nat|exists 1%nat|exists 4%nat|exfalso; apply H; f_equal; lia|exists 0%nat
    |exists 5%nat|exists 6%nat|exists 7%nat]; (split; [lia|unfold nbr; simpl; f_equal; lia]).
  - intros (k & Hk & ->). unfold adj8, nbr; simpl.
    assert (Hr : In k ring) by (apply in_ring; lia).
    simpl in Hr; intuition (subst k; simpl in *; try lia;
      try (destruct p as [a b]; simpl in *; match goal with H : (_, _) = (_, _) |- _ => injection H; lia end)).
Qed.

Lemma adj4_nbr p q : adj4 p q <-> exists k, In k [0;2;4;6]%nat /\ q = nbr p k.
Proof.
  split.
  - destruct p as [a b], q as [c d]; unfold adj4; simpl; intros H.
    assert (Hc : (c = a - 1 /\ d = b) \/ (c = a + 1 /\ d = b) \/ (c = a /\ d = b - 1) \/ (c = a /\ d = b + 1)) by lia.
    destruct Hc as [[-> ->]|[[-> ->]|[[-> ->]|[-> ->]]]];
    [exists 2%nat|exists 6%nat|exists 4%nat|exists 0%nat]; (split; [simpl; tauto|unfold nbr; simpl; f_equal; lia]).
  - intros (k & Hk & ->). unfold adj4, nbr.
    simpl in Hk; intuition (subst k; simpl; lia).
Qed.

(** Adjacency between ring positions, computed from the offsets. *)
Definition radj8 (i j : nat) : bool :=
  negb (Nat.eqb i j)
  && (Z.abs (fst (off i) - fst (off j)) <=? 1) && (Z.abs (snd (off i) - snd (off j)) <=? 1).
Definition radj4 (i j : nat) : bool :=
  Z.abs (fst (off i) - fst (off j)) + Z.abs (snd (off i) - snd (off j)) =? 1.

Fixpoint reach (adj : nat -> nat -> bool) (t : nat -> bool) (n : nat) (i j : nat) : bool :=
  if t i && t j then
    if Nat.eqb i j then true
    else match n with
         | O => false
         | S n' => existsb (fun m => if adj i m then reach adj t n' m j else false) ring
         end
  else false.

Lemma reach_unfold adj t n i j : reach adj t n i j =
  (t i && t j &&
  (Nat.eqb i j ||
   match n with
   | O => false
   | S n' => existsb (fun m => adj i m && reach adj t n' m j) ring
   end)).
Proof. destruct n; cbn [reach]; destruct (t i && t j), (Nat.eqb i j); reflexivity. Qed.


Lemma off_inj i j : (i < 8)%nat -> (j < 8)%nat -> off i = off j -> i = j.
Proof.
  intros Hi Hj. apply in_ring in Hi; apply in_ring in Hj. unfold ring in Hi, Hj; simpl in Hi, Hj.
  repeat (destruct Hi as [<-|Hi]); try contradiction;
  repeat (destruct Hj as [<-|Hj]); try contradiction; unfold off; simpl; intros E;
  first [reflexivity | discriminate E].
Qed.

Lemma nbr_inj p i j : (i < 8)%nat -> (j < 8)%nat -> nbr p i = nbr p j -> i = j.
Proof.
  intros Hi Hj E. apply off_inj; auto. unfold nbr in E. injection E as E1 E2.
  destruct (off i), (off j); simpl in *; f_equal; lia.
Qed.

Lemma reach_linked8 (A : pset) (p : pixel) (t : nat -> bool) :
  (forall k, (k < 8)%nat -> t k = true -> A (nbr p k)) ->
  forall n i j, (i < 8)%nat -> (j < 8)%nat -> reach radj8 t n i j = true ->
  linked adj8 A (nbr p i) (nbr p j).
Proof.
  intros HA; induction n as [|n IH]; intros i j Hi Hj H; rewrite reach_unfold in H;
  apply andb_true_iff in H; destruct H as [H H1]; apply andb_true_iff in H; destruct H as [Ti Tj];
  apply orb_true_iff in H1; destruct H1 as [H1|H1].
  - apply Nat.eqb_eq in H1; subst; constructor; auto.
  - discriminate.
  - apply Nat.eqb_eq in H1; subst; constructor; auto.
  - apply existsb_exists in H1. destruct H1 as (m & Hm & H1).
    apply in_ring in Hm. apply andb_true_iff in H1; destruct H1 as [Ha Hr].
    apply linked_trans with (nbr p m); [|apply IH; auto].
    apply linked_step with (nbr p i); [constructor; auto| |].
    + unfold radj8 in Ha. unfold adj8. repeat split.
      * intros E. apply nbr_inj in E; auto. lia.
      * unfold nbr; simpl; lia.
      * unfold nbr; simpl; lia.
    + apply HA; auto. rewrite reach_unfold in Hr;
      apply andb_true_iff in Hr; destruct Hr as [Hr _]; apply andb_true_iff in Hr; tauto.
Qed.

Lemma reach_linked4 (A : pset) (p : pixel) (t : nat -> bool) :
  (forall k, (k < 8)%nat -> t k = true -> A (nbr p k)) ->
  forall n i j, (i < 8)%nat -> (j < 8)%nat -> reach radj4 t n i j = true ->
  linked adj4 A (nbr p i) (nbr p j).
Proof.
  intros HA; induction n as [|n IH]; intros i j Hi Hj H; rewrite reach_unfold in H;
  apply andb_true_iff in H; destruct H as [H H1]; apply andb_true_iff in H; destruct H as [Ti Tj];
  apply orb_true_iff in H1; destruct H1 as [H1|H1].
  - apply Nat.eqb_eq in H1; subst; constructor; auto.
  - discriminate.
  - apply Nat.eqb_eq in H1; subst; constructor; auto.
  - apply existsb_exists in H1. destruct H1 as (m & Hm & H1).
    apply in_ring in Hm. apply andb_true_iff in H1; destruct H1 as [Ha Hr].
    apply linked_trans with (nbr p m); [|apply IH; auto].
    apply linked_step with (nbr p i); [constructor; auto| |].
    + unfold radj4 in Ha. unfold adj4, nbr; simpl; lia.
    + apply HA; auto. rewrite reach_unfold in Hr;
      apply andb_true_iff in Hr; destruct Hr as [Hr _]; apply andb_true_iff in Hr; tauto.
Qed.

(** ** The finite sweep *)
Definition del_t := bool -> bool -> bool -> bool -> bool -> bool -> bool -> bool -> bool.
Definition ex1 (f : bool -> bool) : bool := f false || f true.

Lemma ex1_intro f b : f b = true -> ex1 f = true.
Proof. unfold ex1; destruct b; intros ->; [apply orb_true_r|reflexivity]. Qed.

(** Neighbour [k] could be deletable, given the eight neighbours of a foreground pixel. *)
Definition could (d : del_t) (e ne n nw w sw s se : bool) (k : nat) : bool :=
  match k with
  | 0%nat => ex1 (fun a => ex1 (fun b => ex1 (fun c => d a b ne n true s se c)))
  | 1%nat => ex1 (fun a => ex1 (fun b => ex1 (fun c => ex1 (fun f => ex1 (fun g => d a b c f n true e g)))))
  | 2%nat => ex1 (fun a => ex1 (fun b => ex1 (fun c => d ne a b c nw w true e)))
  | 3%nat => ex1 (fun a => ex1 (fun b => ex1 (fun c => ex1 (fun f => ex1 (fun g => d n a b c f g w true)))))
  | 4%nat => ex1 (fun a => ex1 (fun b => ex1 (fun c => d true n nw a b c sw s)))
  | 5%nat => ex1 (fun a => ex1 (fun b => ex1 (fun c => ex1 (fun f => ex1 (fun g => d s true w a b c f g)))))
  | 6%nat => ex1 (fun a => ex1 (fun b => ex1 (fun c => d se e true w sw a b c)))
  | 7%nat => ex1 (fun a => ex1 (fun b => ex1 (fun c => ex1 (fun f => ex1 (fun g => d a b e true s c f g)))))
  | _ => false
  end.

Fixpoint vecs (n : nat) : list (list bool) :=
  match n with
  | O => [[]]
  | S n => flat_map (fun v => [false :: v; true :: v]) (vecs n)
  end.

Lemma in_vecs v : In v (vecs (length v)).
Proof.
  induction v as [|b v IH]; simpl; [auto|].
  apply in_flat_map; exists v; split; [exact IH|]. destruct b; simpl; auto.
Qed.

Definition bit (v : list bool) (k : nat) : bool := nth k v false.

Definition app8 (d : del_t) (v : list bool) : bool :=
  d (bit v 0) (bit v 1) (bit v 2) (bit v 3) (bit v 4) (bit v 5) (bit v 6) (bit v 7).

(** The possible states of the ring during the pass: a 0 stays 0, a candidate may have
    been deleted, every other 1 is still there. *)
Definition options (d : del_t) (v : list bool) (k : nat) : list bool :=
  if bit v k then
    if could d (bit v 0) (bit v 1) (bit v 2) (bit v 3) (bit v 4) (bit v 5) (bit v 6) (bit v 7) k
    then [false; true] else [true]
  else [false].

Fixpoint product (opts : list (list bool)) : list (list bool) :=
  match opts with
  | [] => [[]]
  | o :: os => let r := product os in flat_map (fun b => map (cons b) r) o
  end.

Lemma in_product t opts : Forall2 (fun b o => In b o) t opts -> In t (product opts).
Proof.
  induction 1 as [|b o t os Hb H IH]; simpl; [auto|].
  apply in_flat_map; exists b; split; [exact Hb|]. apply in_map; exact IH.
Qed.

Definition good (t : list bool) : bool :=
  existsb (bit t) ring
  && forallb (fun i => forallb (fun j => implb (bit t i && bit t j) (reach radj8 (bit t) 7 i j)) ring) ring
  && existsb (fun k => negb (bit t k)) [0;2;4;6]%nat
  && forallb (fun i => forallb (fun j =>
       implb (negb (bit t i) && negb (bit t j)) (reach radj4 (fun k => negb (bit t k)) 7 i j))
       [0;2;4;6]%nat) [0;2;4;6]%nat.

Definition sweep (d : del_t) : bool :=
  forallb (fun v => if app8 d v then
     forallb good (product (map (options d v) ring)) else true) (vecs 8).

Lemma sweep_odd : sweep gh_delete_odd = true.
Proof. vm_compute; reflexivity. Qed.
Lemma sweep_even : sweep gh_delete_even = true.
Proof. vm_compute; reflexivity. Qed.

(** ** From the sweep to pixel sets *)
Section Pass.
Variable d : del_t.
Hypothesis Hsweep : sweep d = true.
Variable S : Z -> Z -> bool.

Definition Sset : pset := fun p => S (fst p) (snd p) = true.
Definition S'set : pset := fun p => gh_pass d S (fst p) (snd p) = true.
Definition nv (p : pixel) : list bool :=
  map (fun k => S (fst (nbr p k)) (snd (nbr p k))) ring.

Definition deleted (p : pixel) : Prop := Sset p /\ ~ S'set p.

Lemma bit_nv p k : (k < 8)%nat -> bit (nv p) k = S (fst (nbr p k)) (snd (nbr p k)).
Proof.
  intros H; apply in_ring in H; unfold ring in H; simpl in H.
  repeat (destruct H as [<-|H]); try contradiction; reflexivity.
Qed.

Lemma gh_pass_nv p : gh_pass d S (fst p) (snd p) = S (fst p) (snd p) && negb (app8 d (nv p)).
Proof.
  unfold gh_pass, app8. rewrite !bit_nv by lia. unfold nbr; simpl.
  rewrite ?Z.add_0_r. reflexivity.
Qed.

Lemma deleted_app8 p : deleted p -> app8 d (nv p) = true.
Proof.
  intros [H1 H2]. unfold S'set in H2. rewrite gh_pass_nv in H2. unfold Sset in H1.
  rewrite H1 in H2. destruct (app8 d (nv p)); [reflexivity|exfalso; apply H2; reflexivity].
Qed.

(** A deleted neighbour of a foreground pixel is a candidate in the sense of [could]. *)
Lemma deleted_could p k : (k < 8)%nat -> Sset p -> deleted (nbr p k) ->
  could d (bit (nv p) 0) (bit (nv p) 1) (bit (nv p) 2) (bit (nv p) 3)
          (bit (nv p) 4) (bit (nv p) 5) (bit (nv p) 6) (bit (nv p) 7) k = true.
Proof.
  intros Hk Hp Hd. apply deleted_app8 in Hd. unfold app8 in Hd. unfold Sset in Hp.
  destruct p as [r c]; simpl in Hp.
  rewrite !bit_nv in * by lia.
  apply in_ring in Hk; unfold ring in Hk; simpl in Hk.
  repeat (destruct Hk as [<-|Hk]); try contradiction;
  cbn [could]; unfold nbr in *; simpl fst in *; simpl snd in *; unfold off in *; simpl nth in *; simpl fst in *; simpl snd in *.
  all: rewrite ?Z.add_0_r in *.
  all: repeat match goal with |- ex1 _ = true => eapply ex1_intro end.
  all: match goal with H : d ?a ?b ?c ?d0 ?e ?f ?g ?h = true |- _ => idtac end.
  all: etransitivity; [|exact Hd]; f_equal; try reflexivity.
  all: first [ rewrite <- Hp; f_equal; lia | f_equal; lia ].
Qed.

(** Intermediate states between before and after the pass. *)
Definition between (T : pset) : Prop :=
  (forall q, T q -> Sset q) /\ (forall q, S'set q -> T q).

Lemma ring_state (T : pset) p : (forall q, T q \/ ~ T q) ->
  exists t, length t = 8%nat /\ forall k, (k < 8)%nat -> (bit t k = true <-> T (nbr p k)).
Proof.
  intros dec.
  assert (G : forall l, exists t, length t = length l /\
     forall k, (k < length l)%nat -> (nth k t false = true <-> T (nbr p (nth k l 0%nat)))).
  { induction l as [|a l (t & Ht & IH)]; [exists []; split; simpl; [reflexivity|intros; lia]|].
    destruct (dec (nbr p a)) as [Y|N].
    - exists (true :: t); split; [simpl; lia|]. intros [|k] Hk; simpl; [tauto|apply IH; simpl in Hk; lia].
    - exists (false :: t); split; [simpl; lia|]. intros [|k] Hk; simpl;
      [split; [discriminate|contradiction]|apply IH; simpl in Hk; lia]. }
  destruct (G ring) as (t & Ht & IH). exists t; split; [exact Ht|].
  intros k Hk. unfold bit. rewrite (IH k Hk).
  replace (nth k ring 0%nat) with k; [tauto|].
  apply in_ring in Hk; unfold ring in Hk; simpl in Hk.
  repeat (destruct Hk as [<-|Hk]); try contradiction; reflexivity.
Qed.


Lemma local (T : pset) p : (forall q, T q \/ ~ T q) -> between T -> deleted p ->
  exists t, length t = 8%nat /\ (forall k, (k < 8)%nat -> (bit t k = true <-> T (nbr p k))) /\ good t = true.
Proof.
  intros dec [B1 B2] Hd. destruct (ring_state T p dec) as (t & Ht & Hbit).
  exists t; split; [exact Ht|split; [exact Hbit|]].
  pose proof Hsweep as HS.
  unfold sweep in HS. rewrite forallb_forall in HS.
  specialize (HS (nv p)). rewrite (deleted_app8 p Hd) in HS.
  assert (In (nv p) (vecs 8)) as Hin by (apply (in_vecs (nv p))).
  specialize (HS Hin). rewrite forallb_forall in HS.
  apply HS. apply in_product.
  assert (G : forall ks, (forall k, In k ks -> (k < 8)%nat) ->
    Forall2 (fun b o => In b o) (map (bit t) ks) (map (options d (nv p)) ks)).
  { induction ks as [|k ks IH]; intros Hks; simpl; constructor; [|apply IH; intros; apply Hks; simpl; auto].
    assert (Hk : (k < 8)%nat) by (apply Hks; simpl; auto).
    unfold options. destruct (bit t k) eqn:E.
    - assert (E' := E). apply Hbit in E'; auto. apply B1 in E'.
      rewrite (bit_nv p k Hk), E'.
      destruct (could _ _ _ _ _ _ _ _ _ _); simpl; auto.
    - destruct (bit (nv p) k) eqn:Ev; [|simpl; auto].
      rewrite deleted_could; [simpl; auto|auto|exact (proj1 Hd)|].
      split; [rewrite bit_nv in Ev by auto; exact Ev|].
      intros C. apply B2 in C. apply Hbit in C; auto. congruence. }
  replace t with (map (bit t) ring); [apply G; intros k; apply in_ring|].
  destruct t as [|t0 [|t1 [|t2 [|t3 [|t4 [|t5 [|t6 [|t7 [|]]]]]]]]]; try discriminate Ht. reflexivity.
Qed.

Lemma pdec (p q : pixel) : {p = q} + {p <> q}.
Proof. decide equality; apply Z.eq_dec. Qed.

Lemma delete_one (T : pset) p : (forall q, T q \/ ~ T q) -> between T -> deleted p -> T p ->
  topology_preserved T (fun q => T q /\ q <> p).
Proof.
  intros dec HB Hd Hp. destruct (local T p dec HB Hd) as (t & Ht & Hbit & Hg).
  unfold good in Hg. rewrite !andb_true_iff in Hg. destruct Hg as [[[G1 G2] G3] G4].
  assert (Hne : forall q, adj8 p q -> q <> p) by (intros q [H _]; congruence).
  split.
  - tauto.
  - intros u v Hu Hv H. eapply (remove_one adj8 adj8_sym T _ p); eauto; [intros q; tauto|].
    intros q r Hq Hr Tq Tr.
    apply adj8_nbr in Hq; destruct Hq as (i & Hi & ->).
    apply adj8_nbr in Hr; destruct Hr as (j & Hj & ->).
    rewrite forallb_forall in G2. specialize (G2 i (proj2 (in_ring i) Hi)).
    rewrite forallb_forall in G2. specialize (G2 j (proj2 (in_ring j) Hj)).
    rewrite (proj2 (Hbit i Hi)), (proj2 (Hbit j Hj)) in G2 by tauto. cbn [implb andb] in G2.
    apply reach_linked8 with (t := bit t) (n := 7%nat); auto.
    intros k Hk Tk; split; [apply Hbit; auto|]. apply Hne, adj8_nbr; eauto.
  - intros u Tu. destruct (pdec u p) as [->|Hu].
    + apply existsb_exists in G1. destruct G1 as (k & Hk & E). apply in_ring in Hk.
      apply Hbit in E; auto. assert (Ha : adj8 p (nbr p k)) by (apply adj8_nbr; eauto).
      exists (nbr p k); split; [split; auto|].
      eapply linked_step; [constructor; exact Hp|exact Ha|exact E].
    + exists u; split; [tauto|constructor; auto].
  - intros u v Hu Hv H.
    apply (remove_one adj4 adj4_sym (compl (fun q => T q /\ q <> p)) (compl T) p); auto.
    + intros q; unfold compl; split.
      * intros N; split; [tauto|]. intros ->; tauto.
      * intros [N1 N2] C; tauto.
    + intros q r Hq Hr Tq Tr.
      apply adj4_nbr in Hq; destruct Hq as (i & Hi & ->).
      apply adj4_nbr in Hr; destruct Hr as (j & Hj & ->).
      rewrite forallb_forall in G4. specialize (G4 i Hi).
      rewrite forallb_forall in G4. specialize (G4 j Hj).
      assert (Hi8 : (i < 8)%nat) by (clear - Hi; simpl in Hi; lia).
      assert (Hj8 : (j < 8)%nat) by (clear - Hj; simpl in Hj; lia).
      assert (Ei : bit t i = false) by (destruct (bit t i) eqn:E; [apply Hbit in E; auto; contradiction|reflexivity]).
      assert (Ej : bit t j = false) by (destruct (bit t j) eqn:E; [apply Hbit in E; auto; contradiction|reflexivity]).
      rewrite Ei, Ej in G4. cbn [implb andb negb] in G4.
      apply reach_linked4 with (t := fun k => negb (bit t k)) (n := 7%nat); auto.
      intros k Hk Tk C. apply Hbit in C; auto. rewrite C in Tk; discriminate.
  - intros u Hu. destruct (pdec u p) as [->|Hup].
    + apply existsb_exists in G3. destruct G3 as (k & Hk & E).
      assert (Hk8 : (k < 8)%nat) by (simpl in Hk; lia).
      assert (Nk : ~ T (nbr p k)) by (intros C; apply Hbit in C; auto; rewrite C in E; discriminate).
      exists (nbr p k); split; [exact Nk|].
      eapply linked_step with p; [constructor; exact Hu| |unfold compl; tauto].
      apply adj4_nbr; exists k; auto.
    + exists u; split; [tauto|constructor; exact Hu].
Qed.

Lemma delete_list l : Forall deleted l ->
  topology_preserved Sset (fun q => Sset q /\ ~ In q l).
Proof.
  induction l as [|p l IH]; intros H.
  - eapply tp_ext; [| |apply tp_refl]; [intros q; reflexivity|]. intros q; simpl; tauto.
  - inversion H as [|? ? Hp Hl]; subst. specialize (IH Hl).
    destruct (in_dec pdec p l) as [Hin|Hin].
    + eapply tp_ext; [| |exact IH]; [intros q; reflexivity|].
      intros q; simpl; split; [|tauto]. intros [H1 H2]; split; auto. intros [<-|C]; auto.
    + eapply tp_trans; [exact IH|].
      eapply tp_ext; [| |apply (delete_one (fun q => Sset q /\ ~ In q l) p)].
      * intros q; reflexivity.
      * intros q; simpl; split; [intros [[H1 H2] H3]; split; auto; intros [<-|C]; auto|].
        intros [H1 H2]; split; [split; auto|]. intros ->; apply H2; auto.
      * intros q. unfold Sset. destruct (S (fst q) (snd q)); [|right; intros [C _]; discriminate].
        destruct (in_dec pdec q l); [right; tauto|left; auto].
      * split; [tauto|]. intros q Hq. split.
        -- unfold S'set in Hq. rewrite gh_pass_nv in Hq. apply andb_true_iff in Hq. apply Hq.
        -- intros C. rewrite Forall_forall in Hl. apply (Hl q C). exact Hq.
      * exact Hp.
      * split; [exact (proj1 Hp)|exact Hin].
Qed.

Theorem pass_topology (support : list pixel) :
  (forall p, Sset p -> In p support) -> topology_preserved Sset S'set.
Proof.
  intros Hs.
  eapply tp_ext; [| |apply (delete_list
    (filter (fun p => S (fst p) (snd p) && negb (gh_pass d S (fst p) (snd p))) support))].
  - intros q; reflexivity.
  - intros q. cbv beta. rewrite filter_In. unfold Sset, S'set. split.
    + intros [H1 H2]. destruct (gh_pass d S (fst q) (snd q)) eqn:E; [reflexivity|].
      exfalso; apply H2; split; [apply Hs; exact H1|]. rewrite H1; reflexivity.
    + intros H. rewrite H. rewrite gh_pass_nv in H. apply andb_true_iff in H.
      destruct H as [H _]; split; [exact H|]. rewrite H; simpl. intros [_ C]; discriminate.
  - apply Forall_forall. intros q Hq. apply filter_In in Hq. destruct Hq as [_ Hq].
    apply andb_true_iff in Hq; destruct Hq as [H1 H2]. split; [exact H1|].
    unfold S'set. intros C; rewrite C in H2; discriminate.
Qed.
End Pass.
