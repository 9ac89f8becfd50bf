(* What the four formats have to show for a sequence of calls. *)
From Coq Require Import String Ascii List NArith ZArith Bool Arith.
From Verif Require Import Base TreeModel OutModel.
From Verif Require TransModel.
Import ListNotations.
Local Open Scope string_scope.

(* ---- things in a row ---- *)

Inductive item : Type :=
| Word (s : string)      (* a word of the text *)
| Gloss (s : string)     (* a translation *)
| Mark (s : string).     (* a bracket, a piece of a label *)
Definition is_mark (i : item) : bool := match i with Mark _ => true | _ => false end.
Definition text_of (i : item) : string := match i with Word s | Gloss s | Mark s => s end.
Definition words_of (l : list item) : list string := flat_map (fun i => match i with Word s => [s] | _ => [] end) l.

(* nothing but blank pieces *)
Inductive blank (gaps : list string) : string -> Prop :=
| bl_nil : blank gaps ""
| bl_more g s : In g gaps -> blank gaps s -> blank gaps (g ++ s).
(* the items in order with blanks between them; words and translations that follow each
   other are kept apart *)
Inductive typeset (gaps : list string) : bool -> list item -> string -> Prop :=
| ts_nil b s : blank gaps s -> typeset gaps b [] s
| ts_item b g i l s : blank gaps g -> (b = true -> is_mark i = false -> g <> "") ->
    typeset gaps (negb (is_mark i)) l s -> typeset gaps b (i :: l) (g ++ text_of i ++ s).

(* the plain signs of brackets *)
Definition signs (b : bracket) : option (string * string) :=
  match b with
  | BR_NONE => None
  | BR_ROUND => Some ("(", ")") | BR_SQUARE => Some ("[", "]") | BR_BRACE => Some ("{", "}")
  | BR_ANGLE => Some ("<", ">") | BR_CEIL => Some ("^", "^") | BR_FLOOR => Some ("^", "^") | BR_TRIANGLE => Some ("<<", ">>")
  end.
(* in HTML these two are round *)
Definition html_signs (b : bracket) : option (string * string) :=
  match b with BR_CEIL | BR_FLOOR => Some ("(", ")") | _ => signs b end.
(* translations that stand for a sign *)
Definition sign_of (arrow opening closing s : string) : option string :=
  match s with
  | String "$" r =>
      Some (if String.eqb r "LEFTARROW" then arrow else if String.eqb r "OPENQUOTE" then opening
            else if String.eqb r "CLOSEQUOTE" then closing else "")
  | _ => None
  end.
Definition label (brivla place trans : string) (brac : bool) : string :=
  brivla ++ place ++ " " ++ if brac then "(" ++ trans ++ ")" else trans.

(* ---- plain text ---- *)

(* first: no label has been written since the labels began *)
Fixpoint plain_items (first : bool) (cs : list call) : list item :=
  match cs with
  | [] => []
  | Open b _ :: cs => List.app (match signs b with Some (o, _) => [Mark o] | None => [] end) (plain_items first cs)
  | Close b _ :: cs => List.app (match signs b with Some (_, c) => [Mark c] | None => [] end) (plain_items first cs)
  | Eols _ :: cs => plain_items first cs
  | Loj s :: cs => Word s :: plain_items first cs
  | Eng s :: cs => Gloss (match sign_of "<-" "``" "''" s with Some x => x | None => "/" ++ s ++ "/" end) :: plain_items first cs
  | StartTags :: cs => Mark "[" :: plain_items true cs
  | EndTags :: cs => Mark ":]" :: plain_items first cs
  | StartTag :: cs => List.app (if first then [] else [Mark ", "]) (plain_items false cs)
  | TagText b p t br :: cs => Mark (label b p t br) :: plain_items first cs
  | Partial s :: cs => Mark s :: plain_items first cs
  end.
Definition line : string := String "010" "".
Definition plain_gaps : list string := [" "; line].

(* ---- HTML ---- *)

(* what a browser shows: tags are left out, entities stand for their character *)
Fixpoint seen (tag : bool) (s : string) : string :=
  match s with
  | "" => ""
  | String ">" r => if tag then seen false r else String ">" (seen false r)
  | String c r =>
      if tag then seen true r
      else if Ascii.eqb c "<" then seen true r
      else if Ascii.eqb c "&" then
        match r with
        | String "l" (String "t" (String ";" r)) => String "<" (seen false r)
        | String "g" (String "t" (String ";" r)) => String ">" (seen false r)
        | String "a" (String "m" (String "p" (String ";" r))) => String "&" (seen false r)
        | String "q" (String "u" (String "o" (String "t" (String ";" r)))) => String """" (seen false r)
        | _ => String c (seen false r)
        end
      else String c (seen false r)
  end.
(* no character that means something in HTML *)
Fixpoint harmless (s : string) : bool :=
  match s with
  | "" => true
  | String c r => negb (Ascii.eqb c "&" || Ascii.eqb c "<" || Ascii.eqb c ">") && harmless r
  end.
Definition short (s : string) : Prop := (N.of_nat (String.length s) < 65536)%N.
Definition html_ok (c : call) : Prop :=
  match c with
  | Loj s | Partial s => harmless s = true
  | Eng s => harmless s = true /\ short s
  | TagText b p t _ => harmless b = true /\ harmless p = true /\ harmless t = true /\ short t
  | _ => True
  end.
Definition numbered (b : bracket) (n : nat) : option (string * string) :=
  match html_signs b with
  | Some (o, c) => let k := TransModel.zdec (Z.of_nat n) in Some (o ++ k, c ++ k)
  | None => None
  end.
Fixpoint html_items (first : bool) (cs : list call) : list item :=
  match cs with
  | [] => []
  | Open b n :: cs => List.app (match numbered b n with Some (o, _) => [Mark o] | None => [] end) (html_items first cs)
  | Close b n :: cs => List.app (match numbered b n with Some (_, c) => [Mark c] | None => [] end) (html_items first cs)
  | Eols _ :: cs => html_items first cs
  | Loj s :: cs => Word s :: html_items first cs
  | Eng s :: cs => Gloss (match sign_of "<-" """" """" s with Some x => x | None => s end) :: html_items first cs
  | StartTags :: cs => Mark "[" :: html_items true cs
  | EndTags :: cs => Mark ":]" :: html_items first cs
  | StartTag :: cs => List.app (if first then [] else [Mark ", "]) (html_items false cs)
  | TagText b p t br :: cs => Mark (label b p t br) :: html_items first cs
  | Partial s :: cs => Mark s :: html_items first cs
  end.

(* ---- TeX ---- *)

(* how TeX reads a text without macros: a backslash takes the next character as it is, a
   dollar changes between text and formulas *)
Fixpoint tex_shown (s : string) : string :=
  match s with
  | "" => ""
  | String "\" (String c r) => String c (tex_shown r)
  | String "$" r => tex_shown r
  | String c r => String c (tex_shown r)
  end.
(* characters that TeX takes for commands *)
Definition command (c : ascii) : bool := match c with "\" | "$" => true | _ => false end%char.
Fixpoint no_command (s : string) : bool := match s with "" => true | String c r => negb (command c) && no_command r end.
(* the depth of groups after a text; None: more are closed than were opened *)
Fixpoint depth (d : nat) (s : string) : option nat :=
  match s with
  | "" => Some d
  | String "\" (String _ r) => depth d r
  | String "\" "" => None
  | String "{" r => depth (S d) r
  | String "}" r => match d with O => None | S d => depth d r end
  | String _ r => depth d r
  end.
(* no comment, alignment, parameter, subscript or superscript outside formulas, and no
   formula left open; f: in a formula *)
Fixpoint quiet (f : bool) (s : string) : bool :=
  match s with
  | "" => negb f
  | String "\" (String _ r) => quiet f r
  | String "\" "" => false
  | String "$" r => quiet (negb f) r
  | String "^" r => f && quiet f r
  | String ("%" | "&" | "#" | "_") r => false
  | String _ r => quiet f r
  end.
(* no character that means something in TeX *)
Definition tex_active (c : ascii) : bool :=
  match c with "\" | "$" | "{" | "}" | "%" | "&" | "#" | "_" | "^" => true | _ => false end%char.
Fixpoint inert (s : string) : bool := match s with "" => true | String c r => negb (tex_active c) && inert r end.
Definition tex_ok (c : call) : Prop :=
  match c with
  | Loj s | Partial s => inert s = true
  | Eng s => match sign_of "" "" "" s with Some _ => True | None => no_command s = true /\ short (s ++ s ++ s) end
  | TagText b p t _ => inert b = true /\ inert p = true /\ no_command t = true /\ short (t ++ t ++ t)
  | _ => True
  end.

(* ---- TeX with words and translations in two lines ---- *)

Inductive piece : Type :=
| Block (words glosses : list string) (labels : string)
| Sign (c : call)                              (* a bracket *)
| Gap (s : string).
Definition joined (l : list string) : string := fold_right append "" l.
(* how a translation is written in TeX *)
Definition tex_escape (s : string) : string :=
  joined (map (fun c => match c with
                        | "^" | "&" | "{" | "}" | "%" | "_" | "#" => String "\" (String c "")
                        | "<" | ">" => String "$" (String c "$")
                        | _ => String c ""
                        end%char) (list_ascii_of_string s)).
Definition tex_gloss (s : string) : string :=
  match sign_of "{\reflectbox{\zd\char233}}" "``" "''" s with Some x => x | None => " " ++ tex_escape s end.
Definition tex_signs (b : bracket) : string * string :=
  match b with
  | BR_NONE => ("", "")
  | BR_ROUND => ("(", ")") | BR_SQUARE => ("[", "]") | BR_BRACE => ("\{", "\}")
  | BR_ANGLE => ("$\langle$", "$\rangle$") | BR_CEIL => ("$\lceil$", "$\rceil$") | BR_FLOOR => ("$\lfloor$", "$\rfloor$")
  | BR_TRIANGLE => ("\TL{}", "\TR{}")
  end.
Definition shown_piece (p : piece) : string :=
  match p with
  | Block ws gs l =>
      "\BT[t]{l}{\bf " ++ joined (map (append " ") ws) ++ "}\\{\it " ++ joined (map tex_gloss gs) ++ "}\\[-3pt]{\ISS{}" ++ l ++ "}\ET" ++ line
  | Sign (Open b n) => fst (tex_signs b) ++ "{}$^{\IS{" ++ TransModel.zdec (Z.of_nat n) ++ "}}$ "
  | Sign (Close b n) => snd (tex_signs b) ++ "{}$^{\IS{" ++ TransModel.zdec (Z.of_nat n) ++ "}}$ "
  | Sign _ => ""
  | Gap s => s
  end.
(* words, translations and visible brackets *)
Definition event (c : call) : bool :=
  match c with Open BR_NONE _ | Close BR_NONE _ => false | Open _ _ | Close _ _ | Loj _ | Eng _ => true | _ => false end.
Definition events_of (p : piece) : list call :=
  match p with Block ws gs _ => List.app (map Loj ws) (map Eng gs) | Sign c => [c] | Gap _ => [] end.
Definition gap_piece (p : piece) : Prop :=
  match p with Gap s => In s [" "; line ++ line; line ++ line ++ "\vspace{2ex}"] | _ => True end.
Definition closing (c : call) : bool := match c with Close BR_NONE _ => false | Close _ _ => true | _ => false end.
(* the text ends with a bracket *)
Definition ended (cs : list call) : Prop :=
  exists pre c post, cs = List.app pre (c :: post) /\ closing c = true /\ forallb (fun c => negb (event c)) post = true.
(* signs are those that there are *)
Definition visible (c : call) : Prop := match c with Eng s => tex_gloss s <> "" | _ => True end.
