(* C85: what the words, signs, comments, quotations and code of a description mean. *)
From Coq Require Import Ascii String List NArith Bool.
From Verif Require Import FlexModel.
Import ListNotations.
Open Scope string_scope.
Open Scope list_scope.

Definition newline : ascii := "010"%char.
Definition lacks (c : ascii) (s : string) : Prop := ~ In c (list_ascii_of_string s).
Definition all_of (P : ascii -> Prop) (s : string) : Prop := Forall P (list_ascii_of_string s).
(* letters, digits, low lines and dots *)
Definition name_char (c : ascii) : Prop :=
  In c (list_ascii_of_string "abcdefghijklmnopqrstuvwxyzABCDEFGHIJKLMNOPQRSTUVWXYZ0123456789_.").
Definition space_or_tab (c : ascii) : Prop := c = " "%char \/ c = "009"%char.

(* the pieces a description is put together from *)
Inductive piece :=
| word (w : string)                  (* a name or keyword *)
| sign (s : string)                  (* an operator *)
| spaces (s : string)
| end_of_line
| remark (s : string)                (* # and the rest of the line, with its end *)
| quoted (s : string)                (* a name in double quotes, over any lines *)
| code (a b : string) (ls : list string).   (* lines between %{ and %}; blanks after these *)

Definition line_of (s : string) : string := (s ++ String newline "")%string.
Definition text1 (p : piece) : string :=
  match p with
  | word w => w | sign s => s | spaces s => s | end_of_line => String newline ""
  | remark s => ("#" ++ line_of s)%string
  | quoted s => String """" (s ++ String """" "")
  | code a b ls => (line_of ("%{" ++ a) ++ String.concat "" (map line_of ls) ++ line_of ("%}" ++ b))%string
  end.
Definition text (l : list piece) : string := String.concat "" (map text1 l).

(* the signs *)
Definition sign_token (s : string) (t : token) : Prop :=
  In (s, t) [("->", T_ARROW); ("=", T_EQUAL); ("|", T_PIPE); ("&", T_AND); ("~", T_NOT); ("!", T_NOT); ("^", T_XOR);
    ("*", T_STAR); ("?", T_QUERY); (":", T_COLON); (";", T_SEMICOLON); ("(", T_LPAREN); (")", T_RPAREN);
    ("<", T_LANGLE); (">", T_RANGLE); (",", T_COMMA)].
(* the keywords, as the words they are put together from *)
Definition keyword : list (list string * token) :=
  [(["state"], T_STATE); (["abbrev"], T_ABBREV); (["define"], T_DEFINE); (["tokens"], T_TOKENS); (["prefix"], T_PREFIX);
   (["block"], T_BLOCK); (["end"; "block"], T_ENDBLOCK); (["type"], T_TYPE); (["result"], T_RESULT);
   (["early"; "result"], T_EARLYRESULT); (["attribute"], T_ATTR); (["attr"], T_ATTR); (["def"; "attr"], T_DEFATTR);
   (["def"; "result"], T_DEFRESULT); (["symbol"], T_SYMBOL); (["sym"; "result"], T_SYMRESULT);
   (["early"; "sym"; "result"], T_EARLYSYMRESULT)].
Definition upper (c : ascii) : ascii := ascii_of_nat (nat_of_ascii c - 32).
Fixpoint capitals (s : string) : string := match s with "" => "" | String c r => String (upper c) (capitals r) end.
Definition capital (s : string) : string := match s with "" => "" | String c r => String (upper c) r end.
(* small, in capitals, with one capital, with a capital in every word; and EarlySymresult *)
Definition spelling (ps : list string) (w : string) : Prop :=
  In w [String.concat "" ps; capitals (String.concat "" ps); capital (String.concat "" ps); String.concat "" (map capital ps)] \/
  ps = ["early"; "sym"; "result"] /\ w = "EarlySymresult".
Inductive named : string -> token -> Prop :=
| named_keyword : forall ps k w, In (ps, k) keyword -> spelling ps w -> named w k
| named_other : forall w, (forall ps k, In (ps, k) keyword -> ~ spelling ps w) -> named w (T_STRING w).

Definition sound (p : piece) : Prop :=
  match p with
  | word w => w <> "" /\ all_of name_char w
  | sign s => exists t, sign_token s t
  | spaces s => s <> "" /\ all_of space_or_tab s
  | end_of_line => True
  | remark s => lacks newline s
  | quoted s => s <> "" /\ lacks """" s
  | code a b ls => all_of space_or_tab a /\ all_of space_or_tab b /\
      Forall (fun l => lacks newline l /\ forall c, all_of space_or_tab c -> l <> ("%}" ++ c)%string) ls
  end.
(* two words need something between them, and code begins on a line of its own *)
Inductive laid_out : bool -> list piece -> Prop :=
| laid_nil : forall b, laid_out b []
| laid_cons : forall b p l, sound p -> (forall a c ls, p = code a c ls -> b = true) ->
    (forall w w' l', p = word w -> l = word w' :: l' -> False) ->
    (forall s s' l', p = spaces s -> l = spaces s' :: l' -> False) ->
    laid_out (match p with end_of_line | remark _ | code _ _ _ => true | _ => false end) l ->
    laid_out b (p :: l).

(* the tokens, each with the number of its line, and the text to be copied *)
Inductive reads : N -> list piece -> list (token * N) -> string -> Prop :=
| reads_nil : forall n, reads n [] [] ""
| reads_word : forall n w k l ts o, named w k -> reads n l ts o -> reads n (word w :: l) ((k, n) :: ts) o
| reads_sign : forall n s k l ts o, sign_token s k -> reads n l ts o -> reads n (sign s :: l) ((k, n) :: ts) o
| reads_spaces : forall n s l ts o, reads n l ts o -> reads n (spaces s :: l) ts o
| reads_end : forall n l ts o, reads (n + 1) l ts o -> reads n (end_of_line :: l) ts o
| reads_remark : forall n s l ts o, reads (n + 1) l ts o -> reads n (remark s :: l) ts o
| reads_quoted : forall n s l ts o, reads n l ts o -> reads n (quoted s :: l) ((T_STRING s, n) :: ts) o
(* the two lines around code are not counted: see C85_line_refuted *)
| reads_code : forall n a b ls l ts o, reads (n + N.of_nat (List.length ls)) l ts o ->
    reads n (code a b ls :: l) ts (String.concat "" (map line_of ls) ++ o)%string.
(* the true line number: one more than the line ends in front *)
Fixpoint line_ends (s : string) : N :=
  match s with "" => 0 | String c r => (if Ascii.eqb c newline then 1 else 0) + line_ends r end.
(* layout: spaces, line ends and remarks *)
Definition layout (p : piece) : bool := match p with spaces _ | end_of_line | remark _ => true | _ => false end.
Definition matter (l : list piece) : list piece := filter (fun p => negb (layout p)) l.
(* no code, and quotations on one line *)
Definition plain (p : piece) : Prop := match p with code _ _ _ => False | quoted s => lacks newline s | _ => True end.
