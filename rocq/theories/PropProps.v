(* Property theorems C83: facts kept at the nodes of a parse tree. *)
From Coq Require Import List Bool Arith ZArith.
From Verif Require Import Base PropModel PropSpec PropProofs.
Import ListNotations.

(* However the program asks for properties of nodes, sets and reads them, it gets what a table with
   one cell for each property of each node gives: NULL for what has never been made, the same cell every
   time, what was last stored in a field of it, nothing for a field never stored in, but 0
   for is_tertau.  A pointer the program was not given is the only way to go wrong. *)
Theorem C83_table : forall us, do_uses heap0 us = match all_expected [] us with Some l => Ok l | None => UB UB_bounds end.
Proof. exact uses_table. Qed.
Print Assumptions C83_table.
Example C83_table_case :
  do_uses heap0 [Ask 4 conversion false; Ask 4 conversion true; Ask 4 glosstype true; Ask 5 conversion true; Set_ 0 0 2; Set_ 2 0 3; Set_ 1 0 1; Look 0 0; Look 2 0; Look 1 1; Look 1 0; Ask 4 conversion true; Look 2 1] =
  Ok [Pointer None; Pointer (Some 0); Pointer (Some 1); Pointer (Some 2); Done; Done; Done; Value (Some 2%Z); Value (Some 3%Z); Value (Some 0%Z); Value (Some 1%Z); Pointer (Some 0); Value None].
Proof. vm_compute. reflexivity. Qed.

(* Two pointers are the same just when the properties asked for and the nodes are. *)
Theorem C83_pointers : forall us rs i j x p c y p' c' q q', do_uses heap0 us = Ok rs ->
  nth_error us i = Some (Ask x p c) -> nth_error rs i = Some (Pointer (Some q)) -> nth_error us j = Some (Ask y p' c') -> nth_error rs j = Some (Pointer (Some q')) ->
  (q = q' <-> x = y /\ p = p').
Proof. exact pointers. Qed.
Print Assumptions C83_pointers.
Example C83_pointers_case : do_uses heap0 [Ask 4 done_s3 true; Ask 4 done_tu1 true; Ask 4 done_s3 false] = Ok [Pointer (Some 0); Pointer (Some 1); Pointer (Some 0)].
Proof. reflexivity. Qed.
