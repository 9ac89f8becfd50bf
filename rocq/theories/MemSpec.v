(* What the counters of the allocator should say. *)
From Coq Require Import List NArith Bool.
From Verif Require Import Base MemModel.
Import ListNotations.
Open Scope N_scope.

(* the blocks a client holds: pointer and size asked for *)
Definition held := list (N * N).
Definition without (x : N) (l : held) : held := filter (fun b => negb (N.eqb (fst b) x)) l.
Definition hold (o : mem_op) (l : held) : held :=
  match o with
  | Malloc n (Some s) => (s + 8, n) :: l
  | Malloc _ None => l
  | Realloc old n (Some s) => (s + 8, n) :: without old l
  | Realloc old n None => without old l
  | Free x => without x l
  end.
Fixpoint holds (os : list mem_op) (l : held) : held := match os with [] => l | o :: os => holds os (hold o l) end.
Definition total (l : held) : N := fold_right N.add 0 (map snd l).
(* the largest total after any call *)
Fixpoint peak (os : list mem_op) (l : held) : N :=
  match os with [] => 0 | o :: os => N.max (total (hold o l)) (peak os (hold o l)) end.

(* malloc returns an address in use by no block held; Free and Realloc are given blocks
   held; the blocks fit the address space *)
Definition fair (o : mem_op) (l : held) : Prop :=
  match o with
  | Malloc n (Some s) => ~ In (s + 8) (map fst l) /\ n + 8 < 2 ^ 64
  | Realloc old n (Some s) => In old (map fst l) /\ ~ In (s + 8) (map fst (without old l)) /\ n + 8 < 2 ^ 64
  | Free x => In x (map fst l)
  | _ => False
  end.
Fixpoint fairs (os : list mem_op) (l : held) : Prop := match os with [] => True | o :: os => fair o l /\ fairs os (hold o l) end.
