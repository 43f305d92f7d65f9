(** Theorems for C72: iterating with a progress bar. *)
From Verif Require Import ModelIter ProofsFloat.
From Coq Require Import Lia Lra.
Open Scope Z_scope.
Open Scope list_scope.

(** ** Specification *)
(** What [k] requests in a row see of a sequence: its first elements, then the end again and again. *)
Definition expected_outcomes {A} (k : nat) (l : list A) : list (outcome A) :=
  map Yielded (firstn k l) ++ repeat Stopped (k - length l).
(** What they write: the header at the first request, one count for every element that was left behind by
    asking for the next, and the end of the line when there was no next one. *)
Definition expected_log {A} (k : nat) (l : list A) : list event :=
  match k with
  | O => []
  | S k' => Started :: map (fun i => Completed (Z.of_nat i)) (seq 1 (Nat.min k' (length l))) ++ (if (length l <=? k')%nat then [Newline] else [])
  end.
(** The requests before the consumer closes the generator or throws into it. *)
Fixpoint leading (xs : list action) : nat := match xs with Next :: xs => S (leading xs) | _ => O end.
Definition afterwards {A} (x : action) : outcome A := match x with Next => Stopped | Close => Closed | Throw e => Raised e end.

Section Runs.
Context {A : Type}.
Lemma run_finished (xs : list action) : gen_run (@Finished A) xs = (Finished, map afterwards xs, []).
Proof. induction xs as [|x xs IH]; [reflexivity|]. destruct x; cbn [gen_run gen_step]; rewrite IH; reflexivity. Qed.
Lemma run_app (g : gen A) xs ys : gen_run g (xs ++ ys) =
  let '(g1, o1, e1) := gen_run g xs in let '(g2, o2, e2) := gen_run g1 ys in (g2, o1 ++ o2, e1 ++ e2).
Proof.
  revert g. induction xs as [|x xs IH]; intros g.
  - cbn [gen_run app]. destruct (gen_run g ys) as [[g2 o2] e2]. reflexivity.
  - cbn [gen_run app]. destruct (gen_step g x) as [[g0 o0] e0]. rewrite IH. destruct (gen_run g0 xs) as [[g1 o1] e1].
    destruct (gen_run g1 ys) as [[g2 o2] e2]. rewrite <- app_assoc. reflexivity.
Qed.
Lemma seq_shift_map c n : map (fun i => Completed (Z.of_nat c + Z.of_nat i)) (seq 1 (S n)) =
  Completed (Z.of_nat c + 1) :: map (fun i => Completed (Z.of_nat (S c) + Z.of_nat i)) (seq 1 n).
Proof.
  cbn [seq map]. f_equal. rewrite <- seq_shift, map_map. apply map_ext. intros i. f_equal. lia.
Qed.
Lemma run_paused k c (rest : list A) : exists g,
  gen_run (Paused (Z.of_nat c) rest None) (repeat Next k) =
  (g, expected_outcomes k rest,
   map (fun i => Completed (Z.of_nat c + Z.of_nat i)) (seq 1 (Nat.min k (S (length rest)))) ++ (if (length rest <? k)%nat then [Newline] else [])).
Proof.
  revert c rest. induction k as [|k IH]; intros c rest.
  - eexists. unfold expected_outcomes. rewrite firstn_O. reflexivity.
  - destruct rest as [|a rest].
    + eexists. cbn [repeat gen_run gen_step advance]. rewrite run_finished. cbn [length Nat.min]. rewrite seq_shift_map, Nat.min_0_r. cbn [seq map app].
      f_equal. f_equal. unfold expected_outcomes. rewrite firstn_nil, Nat.sub_0_r. cbn [map app repeat length]. f_equal. clear. induction k; cbn; [reflexivity|f_equal; assumption].
    + cbn [repeat gen_run gen_step advance]. replace (Z.of_nat c + 1) with (Z.of_nat (S c)) by lia.
      destruct (IH (S c) rest) as (g & E). rewrite E. eexists. cbn [length]. change (Nat.min (S k) (S (S (length rest)))) with (S (Nat.min k (S (length rest)))).
      rewrite seq_shift_map. change (S (length rest) <? S k)%nat with (length rest <? k)%nat. cbn [app]. replace (Z.of_nat c + 1) with (Z.of_nat (S c)) by lia. reflexivity.
Qed.
End Runs.

(** [k] requests to the tracked sequence: its elements in order, each once, then the end; the bar counts an element
    when the next one is asked for, and ends the line when the sequence is exhausted. *)
Theorem tracked_iteration : forall (A : Type) (l : list A) (k : nat),
  exists g, gen_run (Fresh (Sized l)) (repeat Next k) = (g, expected_outcomes k l, expected_log k l).
Proof.
  intros A l k. destruct k as [|k]; [eexists; unfold expected_outcomes; rewrite firstn_O; reflexivity|].
  destruct l as [|a l].
  - eexists. cbn [repeat gen_run gen_step advance]. rewrite run_finished. cbn [length expected_log Nat.leb]. rewrite Nat.min_0_r. cbn [seq map app].
    f_equal. f_equal. unfold expected_outcomes. rewrite firstn_nil, Nat.sub_0_r. cbn [map app repeat]. f_equal. clear. induction k; cbn; [reflexivity|f_equal; assumption].
  - cbn [repeat gen_run gen_step advance]. destruct (run_paused k 0 l) as (g & E). change (Z.of_nat 0) with 0 in E. rewrite E. eexists. unfold expected_log. cbn [length app]. reflexivity.
Qed.
Print Assumptions tracked_iteration.

(** Every history: what comes after the consumer closed the generator or threw into it yields nothing and writes
    nothing, and what came before is as above. *)
Theorem tracked_history : forall (A : Type) (l : list A) (xs : list action),
  snd (fst (gen_run (Fresh (Sized l)) xs)) = expected_outcomes (leading xs) l ++ map afterwards (skipn (leading xs) xs) /\
  snd (gen_run (Fresh (Sized l)) xs) = expected_log (leading xs) l.
Proof.
  intros A l xs. assert (E : xs = repeat Next (leading xs) ++ skipn (leading xs) xs).
  { induction xs as [|[| |e] xs IH]; cbn [leading repeat skipn app]; [reflexivity|f_equal; exact IH|reflexivity|reflexivity]. }
  assert (T : skipn (leading xs) xs = [] \/ exists x ys, x <> Next /\ skipn (leading xs) xs = x :: ys).
  { clear E. induction xs as [|[| |e] xs IH]; cbn [leading skipn]; [left; reflexivity|exact IH|right; exists Close, xs; split; [discriminate|reflexivity]|right; exists (Throw e), xs; split; [discriminate|reflexivity]]. }
  set (k := leading xs) in *. set (ys := skipn k xs) in *. clearbody k ys. subst xs.
  rewrite run_app. destruct (tracked_iteration A l k) as (g & Eg). rewrite Eg.
  destruct T as [-> | (x & zs & Hx & ->)].
  - cbn [gen_run map]. cbn [fst snd]. rewrite !app_nil_r. auto.
  - cbn [gen_run]. assert (S : gen_step g x = (Finished, afterwards x, [])).
    { destruct x; [contradiction| |]; destruct g; reflexivity. }
    rewrite S, run_finished. cbn [fst snd map app]. rewrite app_nil_r. auto.
Qed.
Print Assumptions tracked_history.

(** The declared number of a pair (iterable, number) changes neither what is yielded nor when the bar is written. *)
Theorem declared_number_is_only_shown : forall (A : Type) (l : list A) n xs,
  snd (fst (gen_run (Fresh (Counted l None n)) xs)) = snd (fst (gen_run (Fresh (Sized l)) xs)) /\
  snd (gen_run (Fresh (Counted l None n)) xs) = snd (gen_run (Fresh (Sized l)) xs).
Proof.
  intros A l n xs. destruct xs as [|[| |e] xs]; [split; reflexivity| |split; cbn [gen_run gen_step]; rewrite run_finished; reflexivity..].
  split; reflexivity.
Qed.
Print Assumptions declared_number_is_only_shown.

(** An unusable argument is reported at the first request, not by the call; a consumer that never asks never learns. *)
Theorem bad_argument_surfaces_at_first_request : forall (A : Type) (a : tasks_arg A) xs,
  (a = OtherTuple \/ a = Unsuitable) ->
  let '(_, os, log) := gen_run (Fresh a) xs in
  log = [] /\
  os = match xs with
       | Next :: ys => Raised (match a with OtherTuple => AssertionError | _ => TypeError end) :: map afterwards ys
       | _ => map afterwards xs
       end.
Proof.
  intros A a xs [-> | ->]; (destruct xs as [|[| |e] xs]; [split; reflexivity|..]; cbn [gen_run gen_step]; rewrite run_finished; split; reflexivity).
Qed.
Print Assumptions bad_argument_surfaces_at_first_request.

(** Looping over the tracked tasks is [track_progress]: same results, same exception, same bar. *)
Lemma loop_paused {A B} (body : A -> res B) (rest : list A) : forall fuel c a results log, (length rest < fuel)%nat ->
  (match body a with
   | Ok b => for_loop body fuel (Paused c rest None) (results ++ [b]) log
   | Err e => Some (Err e, log)
   end) = Some (seq_loop body true c (a :: rest) results log).
Proof.
  induction rest as [|a' rest IH]; intros fuel c a results log H.
  - destruct fuel as [|fuel]; [simpl in H; lia|]. cbn [seq_loop]. destruct (body a) as [b|e]; [|reflexivity].
    cbn [for_loop gen_step advance]. rewrite <- app_assoc. reflexivity.
  - destruct fuel as [|fuel]; [simpl in H; lia|]. simpl in H.
    change (seq_loop body true c (a :: a' :: rest) results log) with
      (match body a with Err e => (Err e, log) | Ok b => seq_loop body true (c + 1) (a' :: rest) (results ++ [b]) (log ++ [Completed (c + 1)]) end).
    destruct (body a) as [b|e]; [|reflexivity]. cbn [for_loop gen_step advance].
    specialize (IH fuel (c + 1) a' (results ++ [b]) (log ++ [Completed (c + 1)]) ltac:(lia)).
    destruct (body a') as [b'|e] eqn:E; [exact IH|]. rewrite <- IH. rewrite app_nil_r. reflexivity.
Qed.
Theorem tracked_loop_is_track_progress : forall (A B : Type) (body : A -> res B) (l : list A) (fuel : nat),
  (length l < fuel)%nat ->
  for_loop body fuel (Fresh (Sized l)) [] [] = Some (track_progress body false l).
Proof.
  intros A B body l fuel H. destruct fuel as [|fuel]; [lia|]. destruct l as [|a l]; [reflexivity|]. simpl in H.
  unfold track_progress. cbn [negb]. rewrite <- (loop_paused body l fuel 0 a [] [Started]) by lia.
  cbn [for_loop gen_step advance]. destruct (body a) as [b|e]; reflexivity.
Qed.
Print Assumptions tracked_loop_is_track_progress.

(** An iterable that fails on the way: the elements before the failure are all yielded and counted, its exception
    reaches the consumer, and the line is not ended. *)
Lemma run_failing {A} (l : list A) e c : exists g,
  gen_run (Paused (Z.of_nat c) l (Some e)) (repeat Next (S (length l))) =
  (g, map Yielded l ++ [Raised e], map (fun i => Completed (Z.of_nat c + Z.of_nat i)) (seq 1 (S (length l)))).
Proof.
  revert c. induction l as [|a l IH]; intros c; [eexists; reflexivity|].
  change (repeat Next (S (length (a :: l)))) with (Next :: repeat Next (S (length l))). cbn [gen_run gen_step advance].
  replace (Z.of_nat c + 1) with (Z.of_nat (S c)) by lia. destruct (IH (S c)) as (g & E). rewrite E. eexists.
  change (length (a :: l)) with (S (length l)). rewrite (seq_shift_map c (S (length l))). cbn [app map]. replace (Z.of_nat c + 1) with (Z.of_nat (S c)) by lia. reflexivity.
Qed.
Theorem failing_iterable : forall (A : Type) (l : list A) e n,
  exists g, gen_run (Fresh (Counted l (Some e) n)) (repeat Next (S (length l))) =
  (g, map Yielded l ++ [Raised e], Started :: map (fun i => Completed (Z.of_nat i)) (seq 1 (length l))).
Proof.
  intros A l e n. destruct l as [|a l]; [eexists; reflexivity|].
  change (repeat Next (S (length (a :: l)))) with (Next :: repeat Next (S (length l))). cbn [gen_run gen_step advance].
  destruct (run_failing l e 0) as (g & E). change (Z.of_nat 0) with 0 in E. rewrite E. eexists. reflexivity.
Qed.
Print Assumptions failing_iterable.

(** Leaving the loop at the last task leaves it uncounted and the line open. *)
Theorem break_at_last_task_completes_bar_refuted :
  ~ (forall (A : Type) (l : list A), l <> [] -> In (Completed (Z.of_nat (length l))) (snd (gen_run (Fresh (Sized l)) (repeat Next (length l) ++ [Close])))).
Proof. intros H. specialize (H Z [5] ltac:(discriminate)). cbn in H. destruct H as [H|[]]; discriminate. Qed.
Print Assumptions break_at_last_task_completes_bar_refuted.

Example ex_iter : gen_run (Fresh (Sized [7; 8])) [Next; Next; Next; Next; Close]
  = (Finished, [Yielded 7; Yielded 8; Stopped; Stopped; Closed], [Started; Completed 1; Completed 2; Newline]).
Proof. reflexivity. Qed.
Example ex_loop_fails : for_loop (fun x => if x =? 8 then Err ValueError else Ok x) 4 (Fresh (Sized [7; 8; 9])) [] []
  = Some (Err ValueError, [Started; Completed 1]).
Proof. reflexivity. Qed.
