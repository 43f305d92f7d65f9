(** Proofs about whole evaluation runs. *)
From Verif Require Export SpecSession.
From Verif Require Import PropertiesCategory PropertiesPrepare ProofsImage ProofsThin ProofsEval ProofsPaths ProofsText PropertiesMetrics PropertiesEval PropertiesSamples PropertiesResults PropertiesCLI.
From Coq Require Import Lia ZifyBool ZifyNat Lqa.
Open Scope Z_scope.
Open Scope list_scope.

(** ** Sessions *)
Lemma sdelivers_ret {A} (a : A) f s (post : A -> fs -> Prop) : raw_values s -> post a f -> session_delivers (fun _ _ f s => (Ok (Some (a, s)), f)) f s post.
Proof.
  intros V H. split.
  - intros. exists (Some (a, s)), f. split; [reflexivity|]. intros ? ? E. injection E as <- <-. split; assumption.
  - exists O, O, a, s, f. reflexivity.
Qed.
Definition seq_session {A B} (m : session A) (g : A -> session B) : session B := fun f r =>
  match m f r with (Err e, f) => (Err e, f) | (Ok None, f) => (Ok None, f) | (Ok (Some (a, r)), f) => g a f r end.
Lemma sdelivers_then {A B} (m : nat -> nat -> session A) (g : nat -> nat -> A -> session B) f s (P1 : A -> fs -> Prop) (P2 : B -> fs -> Prop) :
  session_delivers m f s P1 -> (forall a f' s', raw_values s' -> P1 a f' -> session_delivers (fun F P => g F P a) f' s' P2) ->
  session_delivers (fun F P => seq_session (m F P) (g F P)) f s P2.
Proof.
  intros [D (F & P & a & s' & f' & T)] K. split.
  - intros fuel pfuel. destruct (D fuel pfuel) as (r & f1 & E & H). unfold seq_session. rewrite E. destruct r as [[b sb]|].
    + destruct (H _ _ eq_refl) as [V Q]. destruct (K b f1 sb V Q) as [D2 _]. exact (D2 fuel pfuel).
    + exists None, f1. split; [reflexivity|]. intros ? ? E0. discriminate.
  - destruct (D F P) as (r & f1 & E & H). rewrite (T F P (le_n _) (le_n _)) in E. injection E as <- <-. destruct (H _ _ eq_refl) as [V Q].
    destruct (K a f' s' V Q) as [_ (F2 & P2' & b & sb & f2 & T2)]. exists (Nat.max F F2), (Nat.max P P2'), b, sb, f2. intros fuel pfuel HF HP.
    unfold seq_session. rewrite T by lia. apply T2; lia.
Qed.
Lemma sdelivers_weaken {A} (m : nat -> nat -> session A) f s (P1 P2 : A -> fs -> Prop) : session_delivers m f s P1 -> (forall a f', P1 a f' -> P2 a f') -> session_delivers m f s P2.
Proof.
  intros [D T] K. split; [|exact T]. intros fuel pfuel. destruct (D fuel pfuel) as (r & f1 & E & H). exists r, f1. split; [exact E|].
  intros a s' Er. destruct (H a s' Er) as [V Q]. split; [exact V|apply K, Q].
Qed.
Lemma sdelivers_ext {A} (m m' : nat -> nat -> session A) f s post : (forall F P, m F P f s = m' F P f s) -> session_delivers m f s post -> session_delivers m' f s post.
Proof.
  intros E [D (F & P & a & s' & f' & T)]. split.
  - intros fuel pfuel. rewrite <- E. apply D.
  - exists F, P, a, s', f'. intros. rewrite <- E. apply T; assumption.
Qed.
(** A computation followed by a change of the files. *)
Lemma sdelivers_lift {A B} (m : nat -> nat -> run A) (h : A -> B) (g : A -> fs -> fs) f s (P : A -> Prop) (post : B -> fs -> Prop) :
  delivers m s P -> (forall a, P a -> post (h a) (g a f)) ->
  session_delivers (fun F Q f r => match m F Q r with Err e => (Err e, f) | Ok None => (Ok None, f) | Ok (Some (a, r)) => (Ok (Some (h a, r)), g a f) end) f s post.
Proof.
  intros [D (F & Q & a & s' & T)] K. split.
  - intros fuel pfuel. destruct (D fuel pfuel) as (r & E & H). rewrite E. destruct r as [[b sb]|].
    + exists (Some (h b, sb)), (g b f). split; [reflexivity|]. intros a0 s0 E0. injection E0 as <- <-. destruct (H _ _ eq_refl) as [V Pb]. split; [exact V|apply K, Pb].
    + exists None, f. split; [reflexivity|]. intros ? ? C. discriminate.
  - exists F, Q, (h a), s', (g a f). intros fuel pfuel HF HP. rewrite (T fuel pfuel HF HP). reflexivity.
Qed.

(** ** Result files *)
Lemma in_dir_join dir name : directory dir -> relative name -> path_join dir name = in_dir dir name.
Proof. intros D R. apply join_directory; assumption. Qed.
Lemma dir_app_component out c : component c -> directory (out ++ lit "/" ++ c).
Proof. intros C. apply directory_join, component_directory, C. Qed.
Lemma save_results_file root samples ths o f q : save_results root samples ths o f q <> f q ->
  In q (map (path_join root) [lit "eval_bdry.txt"; lit "eval_bdry_thr.txt"; lit "eval_bdry_img.txt"]).
Proof.
  rewrite save_results_writes. intros H. cbn [map In].
  destruct (text_eqb q (path_join root (lit "eval_bdry.txt"))) eqn:E1; [left; symmetry; apply text_eqb_spec, E1|].
  destruct (text_eqb q (path_join root (lit "eval_bdry_thr.txt"))) eqn:E2; [right; left; symmetry; apply text_eqb_spec, E2|].
  destruct (text_eqb q (path_join root (lit "eval_bdry_img.txt"))) eqn:E3; [right; right; left; symmetry; apply text_eqb_spec, E3|]. cbn [andb] in H. congruence.
Qed.
Lemma text_eqb_refl t : text_eqb t t = true.
Proof. apply text_eqb_spec. reflexivity. Qed.
Lemma text_eqb_ne a b : a <> b -> text_eqb a b = false.
Proof. intros N. destruct (text_eqb a b) eqn:E; [apply text_eqb_spec in E; contradiction|reflexivity]. Qed.
Lemma saved_reports dir rows trs ov f : directory dir -> rows <> [] -> trs <> [] -> reports (save_results dir rows trs (Some ov) f) dir (rows, trs, ov).
Proof.
  intros D Nr Nt. unfold reports.
  assert (P : forall n, In n [lit "eval_bdry.txt"; lit "eval_bdry_thr.txt"; lit "eval_bdry_img.txt"] -> in_dir dir n = path_join dir n).
  { intros n I. symmetry. apply in_dir_join; [exact D|]. cbn [In] in I. intuition (subst n; cbn; discriminate). }
  assert (Inj : forall a b, In a [lit "eval_bdry.txt"; lit "eval_bdry_thr.txt"; lit "eval_bdry_img.txt"] -> In b [lit "eval_bdry.txt"; lit "eval_bdry_thr.txt"; lit "eval_bdry_img.txt"] -> a <> b -> path_join dir a <> path_join dir b).
  { intros a b Ia Ib N E. apply join_inj in E; [contradiction| |]; cbn [In] in Ia, Ib; intuition (subst; reflexivity). }
  assert (Er : nonempty rows = true) by (destruct rows; [congruence|reflexivity]). assert (Et : nonempty trs = true) by (destruct trs; [congruence|reflexivity]).
  split; [|split].
  - destruct (overall_file dir ov (lit "eval_bdry.txt") f) as (t & row & E & T & Sh). exists t, row. split; [|split; [exact T|exact Sh]].
    rewrite P by (cbn; tauto). rewrite save_results_writes, text_eqb_refl. cbn [andb option_map]. rewrite <- E. unfold save_overall_metric, write. rewrite text_eqb_refl. reflexivity.
  - destruct (threshold_file dir trs f) as (t & E & Sh). exists t. split.
    + rewrite P by (cbn; tauto). rewrite save_results_writes, text_eqb_refl, Et. rewrite (text_eqb_ne _ (path_join dir (lit "eval_bdry.txt"))) by (apply Inj; [cbn; tauto|cbn; tauto|discriminate]).
      cbn [andb]. rewrite <- E. unfold save_threshold_metrics, write. rewrite text_eqb_refl. reflexivity.
    + clear - Sh. induction Sh as [|sc row l l' (a & b & c & d & -> & A & B & C & D') Sh IH]; [constructor|]. constructor; [|exact IH]. repeat (constructor; [assumption|]). constructor.
  - intros W. destruct (sample_file dir rows f W) as (t & E & Sh). exists t. split.
    + rewrite P by (cbn; tauto). rewrite save_results_writes, text_eqb_refl, Er. rewrite (text_eqb_ne _ (path_join dir (lit "eval_bdry.txt"))) by (apply Inj; [cbn; tauto|cbn; tauto|discriminate]).
      rewrite (text_eqb_ne _ (path_join dir (lit "eval_bdry_thr.txt"))) by (apply Inj; [cbn; tauto|cbn; tauto|discriminate]).
      cbn [andb]. rewrite <- E. unfold save_sample_metrics, write. rewrite text_eqb_refl. reflexivity.
    + clear - Sh. induction Sh as [|r row l l' (a & b & c & d & -> & A & B & C & D') Sh IH]; [constructor|]. constructor; [|exact IH]. eexists. split; [reflexivity|]. repeat (constructor; [assumption|]). constructor.
Qed.
Lemma saved_only dir rows trs ov f : directory dir -> only_writes (result_files dir) f (save_results dir rows trs ov f).
Proof.
  intros D q N. assert (Dec : {save_results dir rows trs ov f q = f q} + {save_results dir rows trs ov f q <> f q}) by (decide equality; apply (list_eq_dec ascii_dec)). destruct Dec as [E|E]; [exact E|]. exfalso. apply N. apply save_results_file in E.
  unfold result_files. cbn [map In] in *. rewrite <- !in_dir_join by (solve [exact D|cbn; discriminate]). exact E.
Qed.
