(* Which trees the parser builds: the productions of rpc2x.y with the actions that
   action.perl adds to them. *)
From Coq Require Import String List NArith Bool Arith.
From Verif Require Import Base TokData CmavoData TokModel StreamModel TreeModel TreeOutModel GrammarData.
Import ListNotations.
Open Scope string_scope.
Open Scope list_scope.

(* rpc2x.y: the productions for a kind of node *)
Definition alternatives (ty : string) : list (list sym) :=
  flat_map (fun r => if String.eqb (fst r) ty then snd r else []) grammar.

(* lex2.c:1034-1107: the value of a word for the parser.  The nodes of markers, which
   categ.c puts between the words, are dropped from the tree with their tokens
   (action.perl:95-150).  The selma'o of a cmavo is that of its entry (lex1.c:126-134,
   functions.c:93-106, where the two arguments are those of one terminator) *)
Definition is_word (t : tok) (x : node) : Prop :=
  match dat x with
  | N_MARKER _ => False
  | N_CMAVO s c _ => cmavo_selmao c = Some s /\ value_of x = Some (t, Ptr x)
  | _ => value_of x = Some (t, Ptr x)
  end.

(* action.perl:95-150, functions.c:54-71 and 96-112: the children of a node for a list
   of symbols.  An elidable terminator that is not in the text is no child, or a
   child made by new_elidable, a cmavo of that selma'o. *)
Inductive fits : list sym -> list tree -> Prop :=
| fits_nil : fits [] []
| fits_node ty ss ch cs : fits ss cs -> fits (SN ty :: ss) (NT ty ch :: cs)
| fits_word t x ss cs : is_word t x -> fits ss cs -> fits (ST t :: ss) (Leaf x :: cs)
| fits_left_out t ss cs : fits ss cs -> fits (SE t :: ss) cs
| fits_supplied t x ss cs : is_word t x -> fits ss cs -> fits (SE t :: ss) (Leaf x :: cs).

(* a tree all of whose nodes come from productions *)
Fixpoint derived (t : tree) : Prop :=
  match t with
  | Leaf _ => True
  | NT ty ch =>
      (exists ss, In ss (alternatives ty) /\ fits ss ch) /\
      (fix all (l : list tree) : Prop := match l with [] => True | c :: l => derived c /\ all l end) ch
  end.

(* lex2.c:650-980 handle_bahe and handle_indicators: what is attached to a word.  The
   word that an indicator is made from is of selma'o BAhE, UI, CAI, Y, DAhO or FUhO, and
   emphasis is a word of selma'o BAhE *)
Definition attachable (x : node) : bool :=
  match dat x with
  | N_CMAVO s _ _ => existsb (tok_eqb s) [T_BAhE; T_UI; T_CAI; T_Y; T_DAhO; T_FUhO]
  | _ => false
  end.
Fixpoint decorated (x : node) : Prop :=
  match x with
  | Node _ _ _ b _ _ u =>
      match b with Some z => cmtest z T_BAhE = true /\ decorated z | None => True end /\
      (fix all (l : list node) : Prop :=
         match l with [] => True | y :: l => attachable y = true /\ decorated y /\ all l end) u
  end.
Fixpoint words (t : tree) : list node :=
  match t with Leaf x => [x] | NT _ ch => flat_map words ch end.

(* main.c:291-297: what the passes after parsing are given.  rpc2x.y:226-247: the top is
   a CHUNKS node when there was no syntax error *)
Definition parse_tree (t : tree) : Prop :=
  is_nt "CHUNKS" t = true /\ derived t /\ Forall decorated (words t).
