(* What is expected of the text of the random text generator. *)
From Coq Require Import Ascii String List Bool Arith NArith.
From Verif Require Import TokData CmavoData.
Import ListNotations.
Open Scope string_scope.
Open Scope list_scope.

(* a word of a selma'o in the table of the parser *)
Definition cmavo_of (s : tok) (w : string) : Prop := exists i, In (i, w, s) cmavo_cells.
(* random numbers *)
Definition random (y : N) : Prop := (y < 4294967296)%N.

Definition newline : ascii := ascii_of_nat 10.
(* cutting a text at a sign; what follows the last one is the last part *)
Fixpoint cut (at_sign : ascii -> bool) (cur : string) (s : string) : list string :=
  match s with
  | "" => [cur]
  | String c s => if at_sign c then cur :: cut at_sign "" s else cut at_sign (cur ++ String c "") s
  end.
Definition lines (s : string) : list string := cut (Ascii.eqb newline) "" s.
Definition words (s : string) : list string := cut (fun c => Ascii.eqb c " " || Ascii.eqb c newline) "" s.
Fixpoint no_gap (s : string) : bool :=
  match s with "" => true | String c s => negb (Ascii.eqb c " " || Ascii.eqb c newline) && no_gap s end.
