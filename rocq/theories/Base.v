(* Common outcome type of the modelled C functions. *)
From Coq Require Import List String NArith Lia Bool Arith.
Import ListNotations.

(* What running a piece of C can lead to.
   [Abort]  : assert() failure or abort() (main.c:105-124 turns SIGABRT into exit 1)
   [UB r]   : undefined behaviour, r says which (null pointer, array bounds, ...)
   [Exit n] : exit(n) called
   [NoFuel] : the model's step budget was exhausted (never a normal result) *)
Inductive ubkind : Set :=
| UB_null            (* null pointer dereference *)
| UB_bounds          (* access outside an array *)
| UB_uninit          (* use of an uninitialised object *)
| UB_other.

Inductive outcome (A : Type) : Type :=
| Ok (a : A)
| Abort
| UB (k : ubkind)
| Exit (n : N)
| NoFuel.
Arguments Ok {A} a.
Arguments Abort {A}.
Arguments UB {A} k.
Arguments Exit {A} n.
Arguments NoFuel {A}.

(* C statement sequencing: stop at the first abnormal outcome *)
Definition obind {A B} (x : outcome A) (f : A -> outcome B) : outcome B :=
  match x with
  | Ok a => f a
  | Abort => Abort
  | UB k => UB k
  | Exit n => Exit n
  | NoFuel => NoFuel
  end.

(* apply a pure function to a normal result *)
Definition omap {A B} (f : A -> B) (x : outcome A) : outcome B :=
  obind x (fun a => Ok (f a)).

Notation "'do' x <- e ; f" := (obind e (fun x => f))
  (at level 200, x pattern, e at level 100, f at level 200, right associativity).
