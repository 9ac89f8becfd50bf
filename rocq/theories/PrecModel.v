(* dfasyn/parse.y: the parser of result expressions that bison makes from the rules of expr and
   the precedences; it is not in /repo, so the model is the shift and reduce machine with the
   documented treatment of precedences. *)
From Coq Require Import List Arith Bool.
From Verif Require Import DfaModel FlexModel.
Import ListNotations.
Local Open Scope nat_scope.

(* what is on the stack of the parser: an expr or a token (dfasyn/parse.y:178-185) *)
Inductive item := E (e : expr) | K (t : token).

(* dfasyn/parse.y:49-55: %right QUERY COLON, %left PIPE, XOR, AND, NOT; later is higher.
   The operators that may follow an expr and go on with it *)
Definition prec (t : token) : option nat :=
  match t with T_QUERY => Some 1 | T_PIPE => Some 2 | T_XOR => Some 3 | T_AND => Some 4 | _ => None end.
(* dfasyn/parse.y:178-182: the rule that is complete at the top of the stack: its precedence, which is
   that of its last terminal, and the stack after it *)
Definition complete (s : list item) : option (nat * list item) :=
  match s with
  | E e :: K T_NOT :: s => Some (5, E (E_NOT e) :: s)
  | E b :: K T_AND :: E a :: s => Some (4, E (E_AND a b) :: s)
  | E b :: K T_XOR :: E a :: s => Some (3, E (E_XOR a b) :: s)
  | E b :: K T_PIPE :: E a :: s => Some (2, E (E_OR a b) :: s)
  | E c :: K T_COLON :: E b :: K T_QUERY :: E a :: s => Some (1, E (E_COND a b c) :: s)
  | _ => None
  end.

Inductive result := Next (s : list item) (ts : list token) | Accept (e : expr) (rest : list token) | Reject.

(* an expr is on top and cannot be continued with the next token: a complete rule is used;
   without one the expr must be all (dfasyn/parse.y:157-174 come after an expr) *)
Definition finish (s : list item) (ts : list token) : result :=
  match complete s with
  | Some (_, s') => Next s' ts
  | None => match s with [E e] => Accept e ts | _ => Reject end
  end.
(* one action of the parser, dfasyn/parse.y:178-185.  The rules for STRING, STAR and
   parentheses are used as soon as their last token is shifted *)
Definition step (s : list item) (ts : list token) : result :=
  match s with
  | E e :: s1 =>
      match ts with
      | t :: ts' =>
          match prec t with
          | Some p =>
              match complete s with
              | None => Next (K t :: s) ts'
              | Some (q, s') =>
                  (* the higher precedence wins; equals: %right shifts, %left reduces *)
                  if (q <? p) || ((q =? p) && (p =? 1)) then Next (K t :: s) ts' else Next s' ts
              end
          | None =>
              match t, s1 with
              | T_COLON, K T_QUERY :: _ => Next (K t :: s) ts'
              | T_RPAREN, K T_LPAREN :: s2 => Next (E e :: s2) ts'
              | _, _ => finish s ts
              end
          end
      | [] => finish s ts
      end
  | _ =>
      match ts with
      | T_STRING x :: ts' => Next (E (E_SYMBOL x) :: s) ts'
      | T_STAR :: ts' => Next (E E_WILD :: s) ts'
      | (T_NOT as t) :: ts' | (T_LPAREN as t) :: ts' => Next (K t :: s) ts'
      | _ => Reject
      end
  end.
(* yyparse on an expr; Next: the fuel was not enough *)
Fixpoint run (f : nat) (s : list item) (ts : list token) : result :=
  match f with
  | O => Next s ts
  | S f => match step s ts with Next s ts => run f s ts | r => r end
  end.
(* dfasyn/parse.y:178-185: an expr at the front of the tokens and what follows it *)
Definition parse (ts : list token) : result := run (2 * length ts + 1) [] ts.
