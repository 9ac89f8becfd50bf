(* C46: the counters of the memory layer. *)
From Coq Require Import List NArith Bool.
From Verif Require Import Base MemModel MemSpec MemProofs.
Import ListNotations.
Open Scope N_scope.

(* the calls succeed and the count is the sum of the sizes held *)
Theorem C46_balance : forall os, fairs os [] -> exists m, mem_run os mem0 = Ok m /\ in_use m = total (holds os []) mod 2 ^ 64.
Proof. exact balance. Qed.
Print Assumptions C46_balance.
(* what is reported, when the totals fit *)
Theorem C46_statistics : forall os m, fairs os [] -> peak os [] < 2 ^ 64 -> mem_run os mem0 = Ok m ->
  statistics m = (total (holds os []), peak os []).
Proof. exact peaks. Qed.
Print Assumptions C46_statistics.
(* exhausted memory is not noticed *)
Theorem C46_exhausted_refuted : exists n, mem_run [Malloc n None] mem0 = UB UB_null.
Proof. exists 100. reflexivity. Qed.
Print Assumptions C46_exhausted_refuted.
(* Realloc does not take NULL, as realloc does *)
Theorem C46_realloc_null_refuted : forall n got, mem_run [Realloc 0 n got] mem0 = UB UB_other.
Proof. reflexivity. Qed.
Print Assumptions C46_realloc_null_refuted.
(* a size whose sum with the header wraps *)
Theorem C46_wrap_refuted : exists n s, n < 2 ^ 64 /\ mem_run [Malloc n (Some s)] mem0 = UB UB_bounds.
Proof. exists (2 ^ 64 - 4), 4096. split; reflexivity. Qed.
Print Assumptions C46_wrap_refuted.

Definition example_calls : list mem_op :=
  [Malloc 10 (Some 1000); Malloc 20 (Some 2000); Realloc 1008 50 (Some 3000); Free 2008; Malloc 5 (Some 1000)].
Example C46_example : fairs example_calls [] /\ peak example_calls [] < 2 ^ 64
  /\ (exists m, mem_run example_calls mem0 = Ok m /\ statistics m = (55, 70)).
Proof.
  split; [|split; [reflexivity|eexists; split; vm_compute; reflexivity]].
  vm_compute. repeat split; try discriminate; intuition discriminate.
Qed.
