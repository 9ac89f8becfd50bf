(* dfasyn/scan.l: the scanner of the descriptions of automata. *)
From Coq Require Import Ascii String List NArith Arith Bool.
Import ListNotations.
Open Scope string_scope.
Open Scope list_scope.

(* dfasyn/parse.y:36-55: the tokens; a STRING has its text in yylval.s *)
Inductive token :=
| T_STATE | T_ABBREV | T_DEFINE | T_TOKENS | T_PREFIX | T_BLOCK | T_ENDBLOCK | T_TYPE | T_RESULT | T_EARLYRESULT
| T_ATTR | T_DEFATTR | T_DEFRESULT | T_SYMBOL | T_SYMRESULT | T_EARLYSYMRESULT
| T_ARROW | T_EQUAL | T_PIPE | T_AND | T_NOT | T_XOR | T_STAR | T_QUERY | T_COLON | T_SEMICOLON
| T_LPAREN | T_RPAREN | T_LANGLE | T_RANGLE | T_COMMA
| T_STRING (s : string).

(* dfasyn/scan.l:18-19: INITIAL and the exclusive start conditions *)
Inductive mode := INITIAL | PASSTHRU | STR.

(* dfasyn/scan.l:23-80: what a rule does with the text it matched: return a token, return
   it as a STRING, nothing, count a line, switch, copy to the output, copy and count *)
Inductive act := A_tok (t : token) | A_string | A_skip | A_line | A_begin (m : mode) | A_copy | A_copy_line.

(* dfasyn/scan.l:70 the end of a line *)
Definition nl : ascii := ascii_of_nat 10.
(* dfasyn/scan.l:71 *)
Definition tab : ascii := ascii_of_nat 9.
(* dfasyn/scan.l:73, 79 *)
Definition quote : ascii := ascii_of_nat 34.
(* dfasyn/scan.l:52 [A-Za-z0-9_.] *)
Definition word_char (c : ascii) : bool :=
  let n := nat_of_ascii c in
  (((65 <=? n) && (n <=? 90)) || ((97 <=? n) && (n <=? 122)) || ((48 <=? n) && (n <=? 57)) || (n =? 95) || (n =? 46))%nat.
(* dfasyn/scan.l:71 [ \t] *)
Definition blank (c : ascii) : bool := Ascii.eqb c " " || Ascii.eqb c tab.

(* how many characters in front belong to a class: [class]* of a pattern,
   dfasyn/scan.l:52, 53, 71, 72, 75, 77, 80 *)
Fixpoint span (p : ascii -> bool) (s : string) : nat :=
  match s with String c r => if p c then S (span p r) else 0 | "" => 0 end.
(* the text after n characters: where flex goes on after a match (dfasyn/scan.l:23-80) *)
Fixpoint after (n : nat) (s : string) : string :=
  match n, s with S n, String _ r => after n r | _, _ => s end.

(* dfasyn/scan.l:23-80 a pattern: the length of the longest text it matches here *)
Definition pattern := string -> option nat.
(* dfasyn/scan.l:23-70: a pattern of fixed letters *)
Definition lit (l : string) : pattern := fun s => if prefix l s then Some (String.length l) else None.
(* [class]+, dfasyn/scan.l:52, 71, 77, and 80, where the star stands for this: in front of a quote
   the quote is the longer match, at the end of the text scanning ends *)
Definition some (p : ascii -> bool) : pattern := fun s => match span p s with 0 => None | n => Some n end.
(* dfasyn/scan.l:53 \#.*$ : the end of the line must follow and is not eaten.  flex counts
   it when it looks for the longest match; no other pattern begins with this letter *)
Definition comment : pattern := fun s =>
  match s with
  | String c r => if Ascii.eqb c "#" then
      let n := span (fun c => negb (Ascii.eqb c nl)) r in
      match after n r with String _ _ => Some (S n) | "" => None end else None
  | "" => None
  end.
(* dfasyn/scan.l:72, 75: two letters, blanks and the end of the line, at the beginning of a line *)
Definition delimiter (l : string) (bol : bool) : pattern := fun s =>
  if bol && prefix l s then
    let r := after (String.length l) s in
    let n := span blank r in
    match after n r with String c _ => if Ascii.eqb c nl then Some (String.length l + n + 1) else None | "" => None end
  else None.

(* dfasyn/scan.l:23-51 *)
Definition keywords : list (string * token) :=
  [("STATE", T_STATE); ("State", T_STATE); ("state", T_STATE);
   ("ABBREV", T_ABBREV); ("Abbrev", T_ABBREV); ("abbrev", T_ABBREV);
   ("DEFINE", T_DEFINE); ("Define", T_DEFINE); ("define", T_DEFINE);
   ("TOKENS", T_TOKENS); ("Tokens", T_TOKENS); ("tokens", T_TOKENS);
   ("PREFIX", T_PREFIX); ("Prefix", T_PREFIX); ("prefix", T_PREFIX);
   ("BLOCK", T_BLOCK); ("Block", T_BLOCK); ("block", T_BLOCK);
   ("ENDBLOCK", T_ENDBLOCK); ("EndBlock", T_ENDBLOCK);
   ("Endblock", T_ENDBLOCK); ("endblock", T_ENDBLOCK);
   ("TYPE", T_TYPE); ("Type", T_TYPE); ("type", T_TYPE);
   ("RESULT", T_RESULT); ("Result", T_RESULT); ("result", T_RESULT);
   ("EARLYRESULT", T_EARLYRESULT); ("EarlyResult", T_EARLYRESULT);
   ("Earlyresult", T_EARLYRESULT); ("earlyresult", T_EARLYRESULT);
   ("ATTRIBUTE", T_ATTR); ("ATTR", T_ATTR); ("Attribute", T_ATTR); ("Attr", T_ATTR);
   ("attribute", T_ATTR); ("attr", T_ATTR);
   ("DEFATTR", T_DEFATTR); ("DefAttr", T_DEFATTR); ("Defattr", T_DEFATTR); ("defattr", T_DEFATTR);
   ("DEFRESULT", T_DEFRESULT); ("DefResult", T_DEFRESULT); ("Defresult", T_DEFRESULT); ("defresult", T_DEFRESULT);
   ("SYMBOL", T_SYMBOL); ("Symbol", T_SYMBOL); ("symbol", T_SYMBOL);
   ("SYMRESULT", T_SYMRESULT); ("SymResult", T_SYMRESULT); ("Symresult", T_SYMRESULT); ("symresult", T_SYMRESULT);
   ("EARLYSYMRESULT", T_EARLYSYMRESULT); ("EarlySymResult", T_EARLYSYMRESULT);
   ("EarlySymresult", T_EARLYSYMRESULT); ("Earlysymresult", T_EARLYSYMRESULT); ("earlysymresult", T_EARLYSYMRESULT)].
(* dfasyn/scan.l:54-69 *)
Definition operators : list (string * token) :=
  [("->", T_ARROW); ("=", T_EQUAL); ("|", T_PIPE); ("&", T_AND); ("~", T_NOT); ("!", T_NOT); ("^", T_XOR);
   ("*", T_STAR); ("?", T_QUERY); (":", T_COLON); (";", T_SEMICOLON); ("(", T_LPAREN); (")", T_RPAREN);
   ("<", T_LANGLE); (">", T_RANGLE); (",", T_COMMA)].
(* dfasyn/scan.l:23-80: the rules of a start condition in the order of the file *)
Definition fixed (l : list (string * token)) : list (pattern * act) := map (fun x => (lit (fst x), A_tok (snd x))) l.
(* dfasyn/scan.l:23-80 *)
Definition rules (m : mode) (bol : bool) : list (pattern * act) :=
  match m with
  | INITIAL =>
      fixed keywords ++ [(some word_char, A_string); (comment, A_skip)] ++ fixed operators ++
      [(lit (String nl ""), A_line); (some blank, A_skip); (delimiter "%{" bol, A_begin PASSTHRU);
       (lit (String quote ""), A_begin STR)]
  | PASSTHRU =>
      [(delimiter "%}" bol, A_begin INITIAL); (lit (String nl ""), A_copy_line);
       (some (fun c => negb (Ascii.eqb c nl)), A_copy)]
  | STR =>
      [(lit (String quote ""), A_begin INITIAL); (some (fun c => negb (Ascii.eqb c quote)), A_string)]
  end.

(* the choice of flex: the longest match, the first rule of the file among equals
   (dfasyn/scan.l is a flex file; the table driven loop flex makes is not in /repo) *)
Fixpoint pick (rs : list (pattern * act)) (s : string) (best : option (nat * act)) : option (nat * act) :=
  match rs with
  | [] => best
  | (p, a) :: rs =>
      pick rs s (match p s with
                 | None => best
                 | Some n => match best with Some (m, _) => if (m <? n)%nat then Some (n, a) else best | None => Some (n, a) end
                 end)
  end.
(* the last character of the matched text decides whether ^ holds next (flex, dfasyn/scan.l:72, 75) *)
Fixpoint ends_line (bol : bool) (s : string) : bool :=
  match s with "" => bol | String c r => ends_line (Ascii.eqb c nl) r end.

(* dfasyn/scan.l:15, 23-80: the tokens with the value of lineno when they are returned, and what
   goes to yyout *)
Definition scanned := (list (token * N) * string)%type.
(* dfasyn/scan.l:23-80 yylex called to the end of the text; None: fuel.  A character that no
   rule matches is copied to the output (the default rule of flex) *)
Fixpoint scan (f : nat) (m : mode) (bol : bool) (line : N) (s : string) : option scanned :=
  match f with
  | O => None
  | S f =>
      match s with
      | "" => Some ([], "")
      | String c r =>
          match pick (rules m bol) s None with
          | None => option_map (fun '(ts, o) => (ts, String c o)) (scan f m (Ascii.eqb c nl) line r)
          | Some (n, a) =>
              let t := substring 0 n s in
              let r := after n s in
              let b := ends_line bol t in
              match a with
              | A_tok k => option_map (fun '(ts, o) => ((k, line) :: ts, o)) (scan f m b line r)
              | A_string => option_map (fun '(ts, o) => ((T_STRING t, line) :: ts, o)) (scan f m b line r)
              | A_skip => scan f m b line r
              | A_line => scan f m b (line + 1) r
              | A_begin m' => scan f m' b line r
              | A_copy => option_map (fun '(ts, o) => (ts, (t ++ o)%string)) (scan f m b line r)
              | A_copy_line => option_map (fun '(ts, o) => (ts, (t ++ o)%string)) (scan f m b (line + 1) r)
              end
          end
      end
  end.
(* dfasyn/scan.l: the whole file; lineno starts at 1 (scan.l:15) *)
Definition lex (s : string) : option scanned := scan (S (String.length s)) INITIAL true 1 s.
