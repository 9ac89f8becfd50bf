(* The tables the modelled generator emits for the three shipped descriptions. *)
From Coq Require Import String List NArith.
From Verif Require Import Base Arr DfaModel NfaData.
Import ListNotations.
Open Scope N_scope.

(* stands for "the generator failed"; never the value of the definitions below,
   see DfaTablesProofs.v *)
Definition no_tables : tables := Tables (aof []) (aof []) (aof []) (aof []) [] [].

(* Makefile.in:144-145 stag_dfa.c: output of dfasyn for stag_nfa.in *)
Definition stag_tables := Eval vm_compute in
  match dfasyn stag_desc with Ok t => t | _ => no_tables end.

(* Makefile.in:141-142 bctables.c: output of dfasyn for bctables.in *)
Definition bc_tables := Eval vm_compute in
  match dfasyn bad_cmene_desc with Ok t => t | _ => no_tables end.

(* Makefile.in:133-134 morf_dfa.c: output of dfasyn for morf_nfa.in *)
Definition morf_tables := Eval vm_compute in
  match dfasyn morf_desc with Ok t => t | _ => no_tables end.
