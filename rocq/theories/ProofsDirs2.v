(** Plans: the directories above given files. *)
From Verif Require Import SpecDirs ProofsText ProofsResults ProofsPaths ProofsJobs ProofsDirs ProofsConvert PropertiesCompare PropertiesPrepare PropertiesJobs PropertiesJobs2.
From Coq Require Import Lia ZifyBool ZifyNat.
Open Scope Z_scope.
Open Scope list_scope.

Definition way (T : text -> Prop) (p : text) : Prop := top p = false /\ exists f, T f /\ above p f.

Lemma way_plan (T : text -> Prop) : (forall f, T f -> no_dots f) ->
  forall p, way T p -> directory p /\ top p = false /\ basename p <> lit "." /\ (top (dirname p) = true \/ way T (dirname p)).
Proof.
  intros ND p (Tp & f & Tf & Dp & rest & E). split; [exact Dp|]. split; [exact Tp|].
  destruct (directory_parts p Dp) as [(N & -> & Eb)|(b & Nb & Sb & Eb & [(n & Ep & Ed)|(n & Ep & Dd)])]; rewrite Eb.
  - split; [intros ->; discriminate Tp|]. left. reflexivity.
  - split.
    + intros ->. apply (ND f Tf). rewrite E, Ep, repeat_snoc, <- !app_assoc. exists (repeat slash n), rest. reflexivity.
    + left. rewrite Ed. apply slashes_top.
  - split.
    + intros ->. apply (ND f Tf). rewrite E, Ep, repeat_snoc, <- !app_assoc. exists (dirname p ++ repeat slash n), rest. rewrite <- !app_assoc. reflexivity.
    + destruct (top (dirname p)) eqn:Td; [left; reflexivity|right]. split; [exact Td|]. exists f. split; [exact Tf|]. split; [exact Dd|].
      exists (repeat slash n ++ b ++ "/"%char :: rest). rewrite E. rewrite Ep at 1. cbn [repeat app]. rewrite <- ?app_assoc. cbn [app]. rewrite <- ?app_assoc. reflexivity.
Qed.
(** Directories above a path are its directory part or above that. *)
Lemma prefix_cases {A} (a b c d : list A) : a ++ b = c ++ d -> (exists x, c = a ++ x /\ b = x ++ d) \/ (exists x, x <> [] /\ a = c ++ x /\ d = x ++ b).
Proof.
  revert c. induction a as [|x a IH]; intros c E; [left; exists c; auto|]. destruct c as [|y c].
  - right. exists (x :: a). split; [discriminate|]. split; [reflexivity|symmetry; exact E].
  - cbn [app] in E. injection E as <- E. destruct (IH c E) as [(z & -> & ->)|(z & N & -> & ->)]; [left; exists z; auto|right; exists z; auto].
Qed.
Lemma above_step p d : directory d -> above p d -> p = dirname d \/ above p (dirname d).
Proof.
  intros Dd (Dp & rest & E). change "/"%char with slash in E.
  destruct (directory_parts d Dd) as [(N & _ & _)|(b & Nb & Sb & _ & [(n & Ed & _)|(n & Ed & Dn)])].
  - exfalso. apply N. rewrite E. apply in_or_app. right. left. reflexivity.
  - exfalso. assert (X : p ++ slash :: rest = repeat slash (S n) ++ b) by congruence.
    apply prefix_cases in X. destruct X as [(x & Ex & _)|(x & Nx & Ex & Eb)].
    + destruct Dp as (Np & Ep). destruct (@exists_last _ p Np) as (a & c & ->). apply (Ep a). f_equal. f_equal.
      assert (In c (repeat slash (S n))) by (rewrite Ex; apply in_or_app; left; apply in_or_app; right; left; reflexivity). apply repeat_spec in H. exact H.
    + apply Sb. rewrite Eb. apply in_or_app. right. left. reflexivity.
  - assert (X : p ++ slash :: rest = dirname d ++ repeat slash (S n) ++ b) by congruence.
    apply prefix_cases in X. destruct X as [(x & Ex & Er)|(x & Nx & Ex & Er)].
    + destruct x as [|c x]; [left; rewrite app_nil_r in Ex; symmetry; exact Ex|]. right. cbn [app] in Er. injection Er as <- _. split; [exact Dp|]. exists x. exact Ex.
    + exfalso. apply eq_sym in Er. apply prefix_cases in Er. destruct Er as [(y & Ey & _)|(y & Ny & Ey & Eb)].
      * (* p = dirname d ++ x with x made of slashes *)
        destruct Dp as (_ & Ep). destruct (@exists_last _ x Nx) as (a & c & ->). apply (Ep (dirname d ++ a)). rewrite Ex, <- app_assoc. do 3 f_equal.
        assert (In c (repeat slash (S n))) by (rewrite Ey; apply in_or_app; left; apply in_or_app; right; left; reflexivity). apply repeat_spec in H. exact H.
      * apply Sb. rewrite Eb. apply in_or_app. right. left. reflexivity.
Qed.
