(* lex2.c: the token ring as read by the parser.  The position of next_tok is the number
   of the token it points at, counted from 1; 0 is the list head. *)
From Coq Require Import List NArith Bool Arith.
From Verif Require Import Base TokData TokModel.
Import ListNotations.

(* lex2.c:39 next_tok, 1011 returned_EOF *)
Record stream : Type := Stream { pos : nat; eof : bool }.
(* lex2.c:46-50 lex2_initialise *)
Definition stream0 : stream := Stream 0 false.

(* the token at a position; None is the head *)
Definition at_pos (ts : list node) (p : nat) : option node := match p with 0 => None | S p => nth_error ts p end.
(* x->next, x->prev *)
Definition ring_next (ts : list node) (p : nat) : nat := if Nat.ltb p (length ts) then S p else 0.
Definition ring_prev (ts : list node) (p : nat) : nat := match p with 0 => length ts | S p => p end.

(* data.cmavo.selmao of a cmavo or a marker (same offset, nodes.h:45-47) *)
Definition code_of (x : node) : option tok :=
  match dat x with N_CMAVO s _ _ => Some s | N_MARKER t => Some t | _ => None end.
(* lex2.c:981-990; [code] None is 0 *)
Definition stops (code : option tok) (x : option node) : bool :=
  match x with
  | None => true
  | Some x =>
      match code_of x with
      | None => false
      | Some s => existsb (tok_eqb s) [T_I; T_PRIVATE_I_BO; T_NIhO; T_LIhU; T_TOI; T_TUhU; T_FAhO]
                  || match code with Some c => tok_eqb s c | None => false end
      end
  end.
(* lex2.c:980-996 *)
Fixpoint adv_loop (fuel : nat) (ts : list node) (code : option tok) (p : nat) : outcome nat :=
  match fuel with
  | 0 => NoFuel
  | S f => if stops code (at_pos ts p) then Ok p else adv_loop f ts code (ring_next ts p)
  end.
(* lex2.c:974-1000 error_advance *)
Definition error_advance (ts : list node) (code : option tok) (s : stream) : outcome stream :=
  do p <- adv_loop (length ts + 1) ts code (ring_next ts (pos s));
  Ok (Stream (ring_prev ts p) (eof s)).

(* what yylex1 leaves in *res: the value (None is 0) and the node; for GARBAGE the node
   is left as it was *)
Inductive rnode : Type := Null | Ptr (x : node) | Stale.
Definition reply : Type := option tok * rnode.
(* lex2.c:1034-1107 (no N_NONTERM before parsing); None is the end of text at FAhO *)
Definition value_of (x : node) : option (tok * rnode) :=
  match dat x with
  | N_MARKER t => Some (t, Ptr x)
  | N_GARBAGE _ | N_BROKEN_ERASURE _ => Some (T_GARBAGE, Stale)
  | N_CMAVO s _ _ => if tok_eqb s T_FAhO then None else Some (s, Ptr x)
  | N_ZOI _ _ _ => Some (T_ZOI, Ptr x)
  | N_ZO _ => Some (T_ZO, Ptr x)
  | N_LOhU _ => Some (T_LOhU, Ptr x)
  | N_ZEI _ _ _ => Some (T_ZEI, Ptr x)
  | N_BU _ => Some (T_BU, Ptr x)
  | N_BRIVLA _ _ => Some (T_BRIVLA, Ptr x)
  | N_CMENE _ => Some (T_CMENE, Ptr x)
  end.
(* lex2.c:1008-1113 yylex1; the positions are left out *)
Definition yylex1 (ts : list node) (s : stream) : stream * reply :=
  if eof s then (s, (None, Null))
  else
    let p := ring_next ts (pos s) in
    match at_pos ts p with
    | None => (Stream p true, (Some T_PRIVATE_EOF_MARK, Null))
    | Some x =>
        match value_of x with
        | None => (Stream p true, (Some T_PRIVATE_EOF_MARK, Null))
        | Some (v, r) => (Stream p false, (Some v, r))
        end
    end.

(* what the parser may ask for *)
Inductive request : Type := Lex | Advance (code : option tok).
(* the replies to a sequence of requests *)
Fixpoint serve (ts : list node) (rs : list request) (s : stream) : outcome (list reply) :=
  match rs with
  | [] => Ok []
  | Lex :: rs => let (s, r) := yylex1 ts s in do l <- serve ts rs s; Ok (r :: l)
  | Advance c :: rs => do s <- error_advance ts c s; serve ts rs s
  end.
