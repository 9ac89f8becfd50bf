(* C87: how result expressions are read. *)
From Coq Require Import String List.
From Verif Require Import DfaModel FlexModel PrecModel PrecSpec PrecProofs PrecProofs2.
Import ListNotations.
Open Scope string_scope.
Open Scope list_scope.

(* an expression written with the usual precedences is read back, up to the first token that
   does not go on with it *)
Theorem C87_read : forall e ts rest, written 1 e ts -> ends_here rest -> parse (ts ++ rest) = Accept e rest.
Proof. exact parse_written. Qed.
Print Assumptions C87_read.
(* nothing else is accepted *)
Theorem C87_only : forall ts e rest, parse ts = Accept e rest -> exists c, ts = c ++ rest /\ written 1 e c /\ ends_here rest.
Proof. exact parse_accept. Qed.
Print Assumptions C87_only.
(* the parser always comes to an end *)
Theorem C87_ends : forall ts s rest, parse ts <> Next s rest.
Proof. exact parse_ends. Qed.
Print Assumptions C87_ends.
(* no sequence of tokens stands for two expressions *)
Theorem C87_unambiguous : forall e e' ts, written 1 e ts -> written 1 e' ts -> e = e'.
Proof. exact parse_only. Qed.
Print Assumptions C87_unambiguous.

(* !a & b | c ^ (d ? e : f) ? g : h ? * : i -> *)
Example C87_case : exists e ts,
  ts = [T_NOT; T_STRING "a"; T_AND; T_STRING "b"; T_PIPE; T_STRING "c"; T_XOR; T_LPAREN; T_STRING "d"; T_QUERY; T_STRING "e";
        T_COLON; T_STRING "f"; T_RPAREN; T_QUERY; T_STRING "g"; T_COLON; T_STRING "h"; T_QUERY; T_STAR; T_COLON; T_STRING "i"] /\
  e = E_COND (E_OR (E_AND (E_NOT (E_SYMBOL "a")) (E_SYMBOL "b"))
                   (E_XOR (E_SYMBOL "c") (E_COND (E_SYMBOL "d") (E_SYMBOL "e") (E_SYMBOL "f"))))
             (E_SYMBOL "g") (E_COND (E_SYMBOL "h") E_WILD (E_SYMBOL "i")) /\
  written 1 e ts /\ ends_here [T_ARROW; T_STRING "r"] /\ parse (ts ++ [T_ARROW; T_STRING "r"]) = Accept e [T_ARROW; T_STRING "r"].
Proof.
  do 2 eexists. split; [reflexivity|]. split; [reflexivity|].
  match goal with |- ?A /\ ?B /\ ?C => assert (P : C) by (vm_compute; reflexivity) end.
  split; [|split; [cbn; intuition discriminate|exact P]].
  destruct (C87_only _ _ _ P) as [c [Q [W _]]]. apply app_inv_tail in Q. rewrite Q. exact W.
Qed.
