(* What is recorded for a syntax error and what is shown, said without the code. *)
From Coq Require Import String List NArith ZArith Bool Arith Ascii.
From Verif Require Import Base TokData TokModel TreeModel GramModel TraceModel.
From Verif Require TransModel.
Import ListNotations.
Open Scope string_scope.
Open Scope list_scope.

(* a run of reductions with no word read between them *)
Definition run (l : list reduction) : list event := map (fun r => Reduce (fst r) (snd r)) l.
(* the reductions since the last word was read *)
Definition since_last_word (es : list event) (l : list reduction) : Prop :=
  es = run l \/ exists before, es = before ++ Shift :: run l.
(* nowhere more than n reductions in a row *)
Definition rows_of_at_most (n : nat) (es : list event) : Prop :=
  forall before l after, es = before ++ run l ++ after -> List.length l <= n.

(* n nodes of a tree end with the same word, or where nothing is left: each is the last child
   of the one before it, and none has a marker at its end *)
Inductive end_together : tree -> nat -> Prop :=
| one_node ty ch : end_together (NT ty ch) 1
| last_child ty cs k ch n : ~ In ty marked_end -> end_together (NT k ch) n -> end_together (NT ty (cs ++ [NT k ch])) (S n).

(* lines one after the other *)
Definition shown (name : tok -> string) (ssm : N -> string) (ws : list node) (s : string) : Prop :=
  exists ds, Forall2 (fun w d => details name ssm w = Ok d) ws ds /\ s = String.concat "" ds.
(* n spaces *)
Definition spaces (n : nat) : string := string_of_list_ascii (repeat " "%char n).
(* how many productions a report shows *)
Definition productions (T : tables) (l : list reduction) (st : nat) (below : list nat) : nat :=
  List.length l + list_sum (map (fun s => List.length (items T s)) (st :: below)).
(* the heading of a report *)
Definition heading (w r : string) : string := ("Misparsed token :" ++ nl ++ w ++ "Latest successfully parsed tokens :" ++ nl ++ r)%string.

(* ---- the whole report ---- *)
(* names of markers are left out *)
Definition visible (x : string) : string := if String.prefix "PRIVATE_" x then "" else x.
Definition spaced (l : list string) : string := String.concat "" (map (fun x => " " ++ x)%string l).
(* the symbols of a production with a stop after the first n of them, if there are so many *)
Definition dotted (n : nat) (l : list string) : string :=
  let l := map visible l in
  if Nat.eqb n 0 || Nat.ltb (List.length l) n then String.concat " " l
  else (String.concat " " (firstn n l) ++ " ." ++ spaced (skipn n l))%string.
Definition rule_line (T : tables) (r n : nat) : string :=
  ("Rule " ++ TransModel.zdec (Z.of_nat r) ++ " : " ++ lhs T r ++ " <- " ++ dotted n (rhs T r) ++ nl)%string.
(* the word classes that could come in a state *)
Definition classes (T : tables) (st : nat) : list string := filter (fun x => negb (String.prefix "PRIVATE_" x)) (shifts T st).
Definition rules_of (T : tables) (st : nat) : list string := map (fun i => rule_line T (fst i) (snd i)) (items T st).
Definition reduced_lines (T : tables) (r : reduction) : list string :=
  rule_line T (snd r) 0 ::
  (if Nat.eqb (List.length (classes T (fst r))) 0 then [] else ["   (Next word class could be :" ++ spaced (classes T (fst r)) ++ ")" ++ nl])%string.
(* under the heading: what was reduced, the state in which the parser is stuck, the states
   it is in the middle of, innermost first *)
Definition report_lines (T : tables) (l : list reduction) (st : nat) (below : list nat) : list string :=
  ["=============================================="; nl; "Rules reduced since misparsed token was read :"; nl; "=============================================="; nl] ++
  (if Nat.eqb (List.length l) 0 then ["  NONE"; nl] else flat_map (reduced_lines T) l) ++
  ["=========================="; nl; "Jammed parser state ("; TransModel.zdec (Z.of_nat st); ") :"; nl; "=========================="; nl] ++
  rules_of T st ++ [nl; "Next word class could be : "; String.concat " " (classes T st); nl; nl] ++
  ["========================================================="; nl; "Pending parser states (innermost first, outermost last) :"; nl; "========================================================="; nl] ++
  flat_map (fun s => "State " :: TransModel.zdec (Z.of_nat s) :: nl :: rules_of T s ++ ["---------------------------"; nl]) below.
