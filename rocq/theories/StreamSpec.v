(* What the parser should be given: the tokens that are left. *)
From Coq Require Import List NArith Bool Arith.
From Verif Require Import Base TokData TokModel StreamModel.
Import ListNotations.

(* where a new sentence, paragraph or the text around begins, or what was asked for *)
Definition boundary (code : option tok) (x : node) : Prop :=
  exists s, code_of x = Some s /\ (In s [T_I; T_PRIVATE_I_BO; T_NIhO; T_LIhU; T_TOI; T_TUhU; T_FAhO] \/ code = Some s).
(* the tokens left after skipping *)
Inductive skips (code : option tok) : list node -> list node -> Prop :=
| skip_end : skips code [] []
| skip_here x l : boundary code x -> skips code (x :: l) (x :: l)
| skip_over x l r : ~ boundary code x -> skips code l r -> skips code (x :: l) r.

Definition final (x : node) : Prop := exists c f, dat x = N_CMAVO T_FAhO c f.
Definition good (x : node) : Prop := (forall w, dat x <> N_GARBAGE w) /\ forall n, dat x <> N_BROKEN_ERASURE n.
(* the value of a token *)
Definition value (x : node) : tok :=
  match dat x with
  | N_MARKER t => t | N_CMAVO s _ _ => s | N_ZOI _ _ _ => T_ZOI | N_ZO _ => T_ZO | N_LOhU _ => T_LOhU | N_ZEI _ _ _ => T_ZEI
  | N_BU _ => T_BU | N_BRIVLA _ _ => T_BRIVLA | N_CMENE _ => T_CMENE | N_GARBAGE _ | N_BROKEN_ERASURE _ => T_GARBAGE
  end.
Definition handed (x : node) (r : reply) : Prop := fst r = Some (value x) /\ (good x -> snd r = Ptr x) /\ (~ good x -> snd r = Stale).
Definition ended : reply := (None, Null).
Definition ending : reply := (Some T_PRIVATE_EOF_MARK, Null).

(* [given rest rs replies]: with [rest] the tokens left, the replies to the requests;
   None for rest once the end of the text has been given *)
Inductive given : option (list node) -> list request -> list reply -> Prop :=
| g_none rest : given rest [] []
| g_end rs l : given None rs l -> given (Some []) (Lex :: rs) (ending :: l)
| g_final x rest rs l : final x -> given None rs l -> given (Some (x :: rest)) (Lex :: rs) (ending :: l)
| g_token x rest r rs l : ~ final x -> handed x r -> given (Some rest) rs l -> given (Some (x :: rest)) (Lex :: rs) (r :: l)
| g_advance c rest rest' rs l : skips c rest rest' -> given (Some rest') rs l -> given (Some rest) (Advance c :: rs) l
| g_ended rs l : given None rs l -> given None (Lex :: rs) (ended :: l)
| g_ended_advance c rs l : given None rs l -> given None (Advance c :: rs) l.

(* l is l' with some elements left out *)
Inductive part_of {A} : list A -> list A -> Prop :=
| p_nil l : part_of [] l
| p_in x l l' : part_of l l' -> part_of (x :: l) (x :: l')
| p_out x l l' : part_of l l' -> part_of l (x :: l').
Fixpoint nodes_of (l : list reply) : list node :=
  match l with [] => [] | (_, Ptr x) :: l => x :: nodes_of l | _ :: l => nodes_of l end.
(* the tokens in front of the first fa'o *)
Inductive up_to_final : list node -> list node -> Prop :=
| u_nil : up_to_final [] []
| u_final x l : final x -> up_to_final (x :: l) []
| u_cons x l r : ~ final x -> up_to_final l r -> up_to_final (x :: l) (x :: r).
