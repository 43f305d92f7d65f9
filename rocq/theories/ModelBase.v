(** Exceptions as values and a few Python-level helpers shared by all models. *)
From Coq Require Export List Arith ZArith Bool Lia.
Export ListNotations.
Open Scope Z_scope.

(** The exception classes that the modelled code raises (and one C++ crash). *)
Inductive exn : Type :=
| ValueError | AssertionError | TypeError | ZeroDivisionError | IndexError
| KeyError | AttributeError | TimerError | FileNotFoundError | NotImplementedError
| NullDereference (* C++: use of a null or dangling pointer *)
| Terminate (* C++: uncaught exception, the process ends *).

(** Result of a Python call: a value or a raised exception. *)
Inductive res (A : Type) : Type :=
| Ok (a : A)
| Err (e : exn).
Arguments Ok {A} a.
Arguments Err {A} e.

Definition bind {A B} (r : res A) (f : A -> res B) : res B :=
  match r with Ok a => f a | Err e => Err e end.

Definition b2z (b : bool) : Z := if b then 1 else 0.
Definition b2n (b : bool) : nat := if b then 1%nat else 0%nat.

(** [range(n)] as integers. *)
Definition zseq (n : nat) : list Z := map Z.of_nat (seq 0 n).

(** [sum(l)] over integers. *)
Definition zsum (l : list Z) : Z := fold_right Z.add 0 l.
