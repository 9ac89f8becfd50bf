(* tracebk.c: what is told about a syntax error, and what is recorded for it while parsing;
   lex2.c: the words shown with it. *)
From Coq Require Import String List NArith ZArith Bool Arith.
From Verif Require Import Base TokData CmavoData TokModel StreamModel TreeModel TreeOutModel GrammarData GramModel.
From Verif Require TransModel.
Import TransModel(zdec).
Import ListNotations.
Open Scope string_scope.
Open Scope list_scope.

(* ---- what is recorded ---- *)

(* the calls of report_trace_shift and report_trace_reduce that add_trace_to_tabc.pl:32-44 puts
   into the parser *)
Inductive event : Type := Shift | Reduce (stateno ruleno : nat).
(* tracebk.c:15-21 Reduction, reductions[1024] up to n_reductions *)
Definition reduction : Type := (nat * nat)%type.
Definition max_reductions : nat := 1024.
(* tracebk.c:52-58 report_trace_reduce, 60-65 report_trace_shift *)
Definition record (e : event) (l : list reduction) : outcome (list reduction) :=
  match e with
  | Shift => Ok []
  | Reduce s r => if Nat.ltb (List.length l) max_reductions then Ok (l ++ [(s, r)]) else UB UB_bounds
  end.
(* tracebk.c:20-21, 52-65: all calls while parsing *)
Fixpoint records (es : list event) (l : list reduction) : outcome (list reduction) :=
  match es with [] => Ok l | e :: es => do l <- record e l; records es l end.

(* What the parser does to build a tree: a bottom-up parser shifts the words and reduces by the
   production of a node when it has its last child.  Markers (rpc2x.y, PRIVATE_...), which are not
   in the tree, are shifted before what they mark, or after it in the nodes listed here.
   States and numbers of productions are those of the tables Bison makes, and left open. *)
Definition marked_end : list string :=
  ["CHUNKS"; "JEK"; "JOIK"; "JEK_OPT_KE"; "JEK_OPT_KEBO"; "JOIK_OPT_KE"; "JOIK_OPT_KEBO"; "SIMPLE_TENSE_MODAL"].
(* rpc2x.y, action.perl:95-150: the children of a production are built from left to right *)
Inductive builds : tree -> list event -> Prop :=
| builds_node ty ch ss es k s r : In ss (alternatives ty) -> builds_all ss ch es -> (k = 0 \/ In ty marked_end) ->
    (ty = "CHUNKS" -> k <> 0) -> builds (NT ty ch) (es ++ repeat Shift k ++ [Reduce s r])
with builds_all : list sym -> list tree -> list event -> Prop :=
| ba_nil : builds_all [] [] []
| ba_node ty ch ss cs e es k : builds (NT ty ch) e -> builds_all ss cs es -> builds_all (SN ty :: ss) (NT ty ch :: cs) (repeat Shift k ++ e ++ es)
| ba_word t x ss cs es k : builds_all ss cs es -> builds_all (ST t :: ss) (Leaf x :: cs) (repeat Shift (S k) ++ es)
| ba_left_out t ss cs es : builds_all ss cs es -> builds_all (SE t :: ss) cs es
| ba_terminator t x ss cs es k : builds_all ss cs es -> builds_all (SE t :: ss) (Leaf x :: cs) (repeat Shift k ++ es).
(* rpc2x.y:229: all *)
Inductive parses (t : tree) : list event -> Prop :=
| parses_all e s r : builds t e -> parses t (e ++ [Reduce s r]).

(* ---- what is told ---- *)

(* trctabs.c, trcftabs.c, which output2table.pl makes from Bison's output: the symbols of each
   production, the productions of each state with the place in them, the words that can
   come in each state.  The arrays of indices are taken as functions. *)
Record tables : Type := Tables {
  lhs : nat -> string; rhs : nat -> list string; items : nat -> list (nat * nat); shifts : nat -> list string }.
(* what is printed: on standard output and on standard error *)
Definition streams : Type := (string * string)%type.
(* both one after the other: fputc, fprintf *)
Definition also (a b : streams) : streams := ((fst a ++ fst b)%string, (snd a ++ snd b)%string).
(* fprintf(stderr, ...) *)
Definition err (s : string) : streams := ("", s).
(* strncmp(name, "PRIVATE_", 8) == 0 *)
Definition is_private (s : string) : bool := String.prefix "PRIVATE_" s.
(* "\n" *)
Definition nl : string := String (Ascii.ascii_of_nat 10) "".
(* tracebk.c:38-48, from i on *)
Fixpoint show_rhs (i : nat) (l : list string) (focus : nat) : string :=
  match l with
  | [] => ""
  | x :: l => (if Nat.ltb 0 i then " " else "") ++ (if is_private x then "" else x) ++ (if Nat.eqb (i + 1) focus then " ." else "") ++ show_rhs (S i) l focus
  end%string.
(* tracebk.c:27-50 display_rule, always with indent 1: the space goes to standard output *)
Definition display_rule (T : tables) (ruleno focus : nat) : streams :=
  (" ", "Rule " ++ zdec (Z.of_nat ruleno) ++ " : " ++ lhs T ruleno ++ " <- " ++ show_rhs 0 (rhs T ruleno) focus ++ nl)%string.
(* a loop that prints *)
Definition each {A} (f : A -> streams) (l : list A) : streams := fold_right (fun x s => also (f x) s) ("", "") l.
(* tracebk.c:101-122: a production reduced since the last word *)
Definition show_reduced (T : tables) (r : reduction) : streams :=
  let cs := filter (fun x => negb (is_private x)) (shifts T (fst r)) in
  also (display_rule T (snd r) 0)
    (err (match cs with [] => "" | _ => "   (Next word class could be :" ++ String.concat "" (map (fun x => " " ++ x) cs) ++ ")" ++ nl end)%string).
(* tracebk.c:124-149: the state in which no word fits *)
Definition show_jammed (T : tables) (st : nat) : streams :=
  also (err ("==========================" ++ nl ++ "Jammed parser state (" ++ zdec (Z.of_nat st) ++ ") :" ++ nl ++ "==========================" ++ nl)%string)
  (also (each (fun i => display_rule T (fst i) (snd i)) (items T st))
    (err (nl ++ "Next word class could be : " ++ String.concat " " (filter (fun x => negb (is_private x)) (shifts T st)) ++ nl ++ nl)%string)).
(* tracebk.c:151-161: a state below it *)
Definition show_pending (T : tables) (st : nat) : streams :=
  also (err ("State " ++ zdec (Z.of_nat st) ++ nl)%string)
  (also (each (fun i => display_rule T (fst i) (snd i)) (items T st)) (err ("---------------------------" ++ nl)%string)).

(* lex2.c:1115-1190 print_token_details; for the text of a marker (categ.c:29, 44) its token *)
Definition details (name : tok -> string) (ssm_name : N -> string) (x : node) : outcome string :=
  let at_ := (" (line " ++ zdec (Z.of_N (line x)) ++ ", col " ++ zdec (Z.of_N (col x)) ++ ")" ++ nl)%string in
  match dat x with
  | N_GARBAGE w => Ok ("  " ++ w ++ at_)
  | N_MARKER t => Ok ("  MARKER : " ++ name t ++ nl)
  | N_CMAVO _ code _ => Ok ("  " ++ cmavo_word code ++ " [" ++ ssm_name code ++ "]" ++ at_)
  | N_ZOI form term text => Ok ("  " ++ form ++ " " ++ term ++ ". " ++ text ++ " " ++ term ++ "." ++ at_)
  | N_ZO text => Ok ("  zo " ++ text ++ at_)
  | N_LOhU text => Ok ("  lo'u " ++ text ++ " le'u" ++ at_)
  | N_ZEI _ _ _ => do z <- build_string_from_node x; Ok ("  " ++ z ++ at_)
  | N_BU w => Ok ("  " ++ w ++ " bu" ++ at_)
  | N_BRIVLA w _ => Ok ("  " ++ w ++ " [BRIVLA]" ++ at_)
  | N_CMENE w => Ok ("  " ++ w ++ " [CMENE]" ++ at_)
  | N_BROKEN_ERASURE _ => Ok ("  <Incomplete SI erasure>" ++ at_)
  end%string.
(* lex2.c:1208-1214: the loop backwards; n is 8 - i *)
Fixpoint last_toks (name : tok -> string) (ssm : N -> string) (n : nat) (ts : list node) (p : nat) : outcome string :=
  match n with
  | O => Ok ""
  | S n => match at_pos ts p with
           | None => Ok ""
           | Some x => do d <- details name ssm x; do r <- last_toks name ssm n ts (ring_prev ts p); Ok (d ++ r)%string
           end
  end.
(* lex2.c:1192-1216 print_last_toks *)
Definition print_last_toks (name : tok -> string) (ssm : N -> string) (ts : list node) (s : stream) : outcome string :=
  do d <- match at_pos ts (pos s) with Some x => details name ssm x | None => Ok ("  <End of text>" ++ nl)%string end;
  do r <- last_toks name ssm 8 ts (ring_prev ts (pos s));
  Ok ("Misparsed token :" ++ nl ++ d ++ "Latest successfully parsed tokens :" ++ nl ++ r)%string.

(* tracebk.c:67-161 report_trace_error: st is the state on top of the stack, below the others,
   innermost first; backtrace is show_backtrace (option -bt) *)
Definition report_trace_error (backtrace : bool) (T : tables) (name : tok -> string) (ssm : N -> string) (ts : list node) (s : stream) (l : list reduction) (st : nat) (below : list nat) : outcome streams :=
  let ruler := ("--------------------" ++ nl)%string in
  do w <- print_last_toks name ssm ts s;
  let head := err (ruler ++ "SYNTAX ERROR IN TEXT" ++ nl ++ ruler ++ w ++ ruler)%string in
  if backtrace then
    let r1 := ("==============================================" ++ nl)%string in
    let r2 := ("=========================================================" ++ nl)%string in
    Ok (also head
       (also (err (r1 ++ "Rules reduced since misparsed token was read :" ++ nl ++ r1)%string)
       (also (match l with [] => err ("  NONE" ++ nl)%string | _ => each (show_reduced T) l end)
       (also (show_jammed T st)
       (also (err (r2 ++ "Pending parser states (innermost first, outermost last) :" ++ nl ++ r2)%string)
             (each (show_pending T) below))))))
  else Ok head.
