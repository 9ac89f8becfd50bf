(* C87: how result expressions are written. *)
From Coq Require Import List Arith.
From Verif Require Import DfaModel FlexModel.
Import ListNotations.

(* [written n e ts]: the tokens ts are a way to write e at level n or tighter: 1 conditional,
   2 or, 3 exclusive or, 4 and, 5 not, 6 a symbol, a star or parentheses *)
Inductive written : nat -> expr -> list token -> Prop :=
| w_symbol : forall n x, n <= 6 -> written n (E_SYMBOL x) [T_STRING x]
| w_star : forall n, n <= 6 -> written n E_WILD [T_STAR]
| w_paren : forall n e ts, n <= 6 -> written 1 e ts -> written n e ([T_LPAREN] ++ ts ++ [T_RPAREN])
| w_not : forall n e ts, n <= 5 -> written 5 e ts -> written n (E_NOT e) ([T_NOT] ++ ts)
| w_and : forall n a b ta tb, n <= 4 -> written 4 a ta -> written 5 b tb -> written n (E_AND a b) (ta ++ [T_AND] ++ tb)
| w_xor : forall n a b ta tb, n <= 3 -> written 3 a ta -> written 4 b tb -> written n (E_XOR a b) (ta ++ [T_XOR] ++ tb)
| w_or : forall n a b ta tb, n <= 2 -> written 2 a ta -> written 3 b tb -> written n (E_OR a b) (ta ++ [T_PIPE] ++ tb)
| w_cond : forall n a b c ta tb tc, n <= 1 -> written 2 a ta -> written 1 b tb -> written 1 c tc ->
    written n (E_COND a b c) (ta ++ [T_QUERY] ++ tb ++ [T_COLON] ++ tc).
(* the next token does not go on with the expression *)
Definition ends_here (rest : list token) : Prop :=
  match rest with [] => True | t :: _ => ~ In t [T_QUERY; T_PIPE; T_XOR; T_AND] end.
