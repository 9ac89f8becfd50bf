(* C88: the C text of the tables and functions that dfasyn writes. *)
From Coq Require Import Ascii String List Bool Arith NArith ZArith.
From Verif Require Import Base Arr DfaModel DfaSpec DfaTabProofs.
From Verif Require TransModel TabtextModel.
From Verif Require Import TabtextRows TabtextSpec TabtextProofs TabtextProofs2 TabtextProofs3.
Import TabtextModel.
Import ListNotations.
Open Scope string_scope.
Open Scope list_scope.

(* the compressed tables, read back and stored in arrays of their types, are those of C29 *)
Theorem C88_compressed : forall src dfas, Forall (fun d => List.length (d_map d) = N.to_nat (s_ntok src)) dfas ->
  exists token next base def,
    (forall p, exists d1 d2 d3 d4,
      print_compressed_tables p (N.to_nat (s_ntok src)) (map row_of (compress_transition_table (s_ntok src) dfas)) =
        (d1 ++ d2 ++ d3 ++ d4 ++ next_state_compressed p)%string /\
      declares d1 "unsigned char" (table_name p "token") token /\ declares d2 "short" (table_name p "nextstate") next /\
      declares d3 "unsigned short" (table_name p "base") base /\ declares d4 "short" (table_name p "defstate") def) /\
    t_token (print_tables src dfas) = aof (map kept_u8 token) /\ t_next (print_tables src dfas) = aof (map kept_s16 next) /\
    t_base (print_tables src dfas) = aof (map kept_u16 base) /\ t_def (print_tables src dfas) = aof (map kept_s16 def).
Proof. exact text_tables. Qed.
Print Assumptions C88_compressed.
(* so the lookup in the tables that are read gives the transitions of the automaton *)
Theorem C88_lookup : forall src dfas,
  Forall (fun d => List.length (d_map d) = N.to_nat (s_ntok src)) dfas -> closed_table (map d_map dfas) ->
  (s_ntok src <= 256)%N -> (N.of_nat (List.length dfas) <= 32768)%N -> (N.of_nat (List.length dfas) * s_ntok src <= 65535)%N ->
  exists token next base def,
    (forall p, exists d1 d2 d3 d4,
      print_compressed_tables p (N.to_nat (s_ntok src)) (map row_of (compress_transition_table (s_ntok src) dfas)) =
        (d1 ++ d2 ++ d3 ++ d4 ++ next_state_compressed p)%string /\
      declares d1 "unsigned char" (table_name p "token") token /\ declares d2 "short" (table_name p "nextstate") next /\
      declares d3 "unsigned short" (table_name p "base") base /\ declares d4 "short" (table_name p "defstate") def) /\
    forall exit attr, List.length exit = List.length dfas -> forall s t, (s < N.of_nat (List.length dfas))%N ->
      next_state (Tables (aof (map kept_u8 token)) (aof (map kept_s16 next)) (aof (map kept_u16 base)) (aof (map kept_s16 def)) exit attr) (Some s) t =
      Ok (entry (map d_map dfas) s t).
Proof. exact text_lookup. Qed.
Print Assumptions C88_lookup.
(* the full table, read back: the number at Nt * state + token is the next state *)
Theorem C88_full : forall rows nt, Forall (fun r => List.length (r_map r) = nt) rows ->
  exists all, (forall p, exists d, print_uncompressed_tables p nt rows = (d ++ next_state_uncompressed p nt)%string /\ declares d "short" (table_name p "trans") all) /\
  forall i j r, nth_error rows i = Some r -> (j < nt)%nat -> nth_error all (nt * i + j) = nth_error (r_map r) j.
Proof. exact text_full. Qed.
Print Assumptions C88_full.
(* the results of the states, read back *)
Theorem C88_results : forall ty p name l, l <> [] -> Forall (fun w => plain_word w = true) l ->
  exists body, print_result_table ty p name l = (ty ++ " " ++ table_name p name ++ "[] = {" ++ body ++ "};" ++ newline ++ newline)%string /\ fields false "" body = l.
Proof. exact result_text. Qed.
Print Assumptions C88_results.
(* with a prefix, the functions use only their parameters and the tables written *)
Theorem C88_names : forall p, all_letters p = true ->
  closed_function [p ++ "_token"; p ++ "_nextstate"; p ++ "_base"; p ++ "_defstate"]%string (next_state_compressed (Some p)) /\
  forall nt, closed_function [p ++ "_trans"]%string (next_state_uncompressed (Some p) nt).
Proof. intros p P. split; [exact (closed_compressed p P)|intro nt; exact (closed_uncompressed p nt P)]. Qed.
Print Assumptions C88_names.
(* without a prefix they use a name that is not declared *)
Theorem C88_no_prefix_refuted :
  ~ closed_function ["token"; "nextstate"; "base"; "defstate"] (next_state_compressed None) /\
  forall nt, ~ closed_function ["trans"] (next_state_uncompressed None nt).
Proof. split; [exact open_compressed|exact open_uncompressed]. Qed.
Print Assumptions C88_no_prefix_refuted.

Example C88_case :
  let rows := [TRow [1; 2; -1]%Z (-1); TRow [-1; 12; 0]%Z 0] in
  Forall (fun r => List.length (r_map r) = 3%nat) rows /\
  (exists f, print_uncompressed_tables (Some "x") 3 rows =
    ("static short x_trans[] = {" ++ newline ++ "     1,    2,   -1,   -1,   12,    0" ++ newline ++ "};" ++ newline ++ newline ++ f)%string) /\
  (exists f, print_compressed_tables None 3 rows =
    ("static unsigned char token[] = {" ++ newline ++ "    0,   1,   0,   1,   2" ++ newline ++ "};" ++ newline ++ newline ++ f)%string) /\
  print_result_table "int" (Some "x") "exitval" ["A"; "B_1"] =
    ("int x_exitval[] = {" ++ newline ++ "A, /* State 0 */" ++ newline ++ "B_1  /* State 1 */" ++ newline ++ "};" ++ newline ++ newline)%string /\
  fields false "" (newline ++ "A, /* State 0 */" ++ newline ++ "B_1  /* State 1 */" ++ newline) = ["A"; "B_1"] /\
  all_letters "vlatai2_x" = true.
Proof.
  cbv zeta. split; [repeat constructor|]. split; [eexists; vm_compute; reflexivity|]. split; [eexists; vm_compute; reflexivity|].
  repeat split; vm_compute; reflexivity.
Qed.
Example C88_case_dfa : exists src dfas, Forall (fun d => List.length (d_map d) = N.to_nat (s_ntok src)) dfas /\
  List.length (compress_transition_table (s_ntok src) dfas) = 2%nat /\ closed_table (map d_map dfas) /\
  exists x, t_next (print_tables src dfas) = aof x /\ x = [Some 1%N; Some 1%N; Some 1%N; Some 1%N; Some 1%N; Some 0%N].
Proof.
  exists (Source 5 [] 0 create_evaluator create_evaluator),
    [DNode None false None [Some 1%N; Some 1%N; Some 1%N; Some 1%N; Some 1%N]; DNode None false None [Some 1%N; Some 1%N; Some 1%N; Some 1%N; Some 0%N]].
  split; [repeat constructor|]. split; [vm_compute; reflexivity|]. split; [repeat constructor|]. eexists. split; [|reflexivity]. vm_compute. reflexivity.
Qed.
