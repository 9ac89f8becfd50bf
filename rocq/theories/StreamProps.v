(* C44: the token stream under error recovery. *)
From Coq Require Import String List NArith Bool Arith.
From Verif Require Import Base TokData TokModel StreamModel StreamSpec StreamProofs.
Import ListNotations.

Open Scope list_scope.

(* for any tokens and any mixture of requests for a token and skips after an error: every
   request is answered and every skip stops; a skip goes on to the first boundary that
   has not been given out, or to the end *)
Theorem C44_recovery : forall ts rs, exists l, serve ts rs stream0 = Ok l /\ given (Some ts) rs l.
Proof. exact serve_given. Qed.
Print Assumptions C44_recovery.

(* no token is given out twice or out of order, and none from fa'o on *)
Theorem C44_forwards : forall ts rs u, up_to_final ts u -> exists l, serve ts rs stream0 = Ok l /\ part_of (nodes_of l) u.
Proof. exact serve_part. Qed.
Print Assumptions C44_forwards.

(* without errors: all tokens in front of the first fa'o, the end of text once, then 0 *)
Theorem C44_stream : forall ts u k, up_to_final ts u ->
  exists us, Forall2 handed u us /\ serve ts (repeat Lex (List.length u + S k)) stream0 = Ok (us ++ ending :: repeat ended k).
Proof. exact serve_all. Qed.
Print Assumptions C44_stream.

(* mi klama .i do klama fa'o ti *)
Definition cmavo (s : tok) : node := Node (N_CMAVO s 0%N false) 1 1 None false None [].
Definition klama : node := Node (N_BRIVLA "klama"%string BVT_GISMU) 1 1 None false None [].
Example C44_example :
  let ts := [cmavo T_KOhA; klama; cmavo T_I; cmavo T_BAI; klama; cmavo T_FAhO; cmavo T_KOhA] in
  up_to_final ts [cmavo T_KOhA; klama; cmavo T_I; cmavo T_BAI; klama] /\
  serve ts [Lex; Advance None; Lex; Lex; Advance None; Lex; Advance None; Lex] stream0 =
    Ok [(Some T_KOhA, Ptr (cmavo T_KOhA)); (Some T_I, Ptr (cmavo T_I)); (Some T_BAI, Ptr (cmavo T_BAI)); ending; ended].
Proof.
  split; [|vm_compute; reflexivity].
  repeat (apply u_cons; [intros (c & f & H); discriminate H|]). apply u_final. eexists _, _; reflexivity.
Qed.

(* where the reading position points once the end has been given: skipping moves it back
   to the front of the text (not observable through the tokens, which have ended) *)
Theorem C44_position_refuted : exists ts s s', s = fst (yylex1 ts (Stream (List.length ts) false)) /\
  error_advance ts None s = Ok s' /\ pos s < pos s' < List.length ts.
Proof.
  exists [klama; cmavo T_I; klama], (Stream 0 true), (Stream 1 true). repeat split; cbn; auto with arith.
Qed.
Print Assumptions C44_position_refuted.
