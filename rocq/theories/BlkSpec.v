(* What interlinear output is to show of the calls. *)
From Coq Require Import String Ascii List NArith ZArith Bool Arith.
From Verif Require Import Base OutModel OutSpec LayoutSpec.
From Verif Require TransModel.
Import TransModel(zdec).
Import ListNotations.
Open Scope string_scope.
Open Scope list_scope.

Definition letters (s : string) : list ascii := list_ascii_of_string s.
Definition and_space (s : string) : list ascii := letters s ++ [" "%char].
(* the signs of a bracket in the row of words, of translations and of labels *)
Definition opening (b : bracket) : option (string * string * string) :=
  match b with
  | BR_NONE => None
  | BR_ROUND => Some ("(", "(", "(") | BR_SQUARE => Some ("[", "[", "[") | BR_BRACE => Some ("{", "{", "{")
  | BR_ANGLE => Some ("<", "<", "<") | BR_CEIL => Some (" /", "|", "|") | BR_FLOOR => Some ("|", "|", " \")
  | BR_TRIANGLE => Some ("<<", "<<", "<<")
  end.
Definition closing (b : bracket) : option (string * string * string) :=
  match b with
  | BR_NONE => None
  | BR_ROUND => Some (")", ")", ")") | BR_SQUARE => Some ("]", "]", "]") | BR_BRACE => Some ("}", "}", "}")
  | BR_ANGLE => Some (">", ">", ">") | BR_CEIL => Some ("\", " |", " |") | BR_FLOOR => Some (" |", " |", "/")
  | BR_TRIANGLE => Some (">>", ">>", ">>")
  end.
Definition sign (c : call) : option (string * string * string) := match c with Open b _ => opening b | Close b _ => closing b | _ => None end.
(* the row of words: words and brackets, each with a space *)
Definition word_row (cs : list call) : list ascii :=
  concat (map (fun c => match c with Loj s => and_space s | _ => match sign c with Some (a, _, _) => and_space a | None => [] end end) cs).
(* the row of translations; $... stands for a sign *)
Definition dollar_sign (s : string) : string :=
  if String.eqb s "$LEFTARROW" then "<-" else if String.eqb s "$OPENQUOTE" then """" else if String.eqb s "$CLOSEQUOTE" then """" else "".
Definition gloss_row (cs : list call) : list ascii :=
  concat (map (fun c => match c with
                        | Eng (String "$" s) => letters (dollar_sign (String "$" s))
                        | Eng s => and_space s
                        | _ => match sign c with Some (_, a, _) => and_space a | None => [] end
                        end) cs).
(* the rows of labels: a bracket has its sign and its number, a label its text *)
Definition label_part (c : call) : list ascii :=
  match c with
  | TagText a b t brac => letters a ++ letters b ++ [" "%char] ++ (if brac then "("%char :: letters t ++ [")"; " "]%char else and_space t)
  | Partial s => letters s
  | _ => []
  end.
Definition ready (l : option (list ascii)) : list (list ascii) := match l with Some t => [t] | None => [] end.
(* l: the label being read *)
Fixpoint label_rows (cs : list call) (l : option (list ascii)) : list (list ascii) :=
  match cs with
  | [] => []
  | StartTags :: cs => label_rows cs None
  | StartTag :: cs => ready l ++ label_rows cs (Some [])
  | EndTags :: cs => ready l ++ label_rows cs None
  | c :: cs =>
      match sign c, c with
      | Some (_, _, a), (Open _ n | Close _ n) => and_space a :: and_space (zdec (Z.of_nat n)) :: label_rows cs l
      | _, _ => label_rows cs (option_map (fun t => t ++ label_part c) l)
      end
  end.
Definition tags_of (e : ev) : list (list ascii) := match e with B b => tags b | Rest _ => [] end.
(* a block that fits the buffers *)
Definition small (e : ev) : Prop := match e with B b => wide b < 512 /\ List.length (tags b) <= 32 | Rest _ => True end.
