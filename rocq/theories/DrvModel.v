(* textout.c, htmlout.c, latex.c, latexblk.c: the output drivers.  A driver takes the calls
   of output.c one by one and prints.  The counter pending_eols is unbounded here. *)
From Coq Require Import String Ascii List NArith ZArith Bool Arith.
From Verif Require Import Base TreeModel OutModel.
From Verif Require TransModel.
Import TransModel(zdec).
Import ListNotations.
Local Open Scope string_scope.

(* textout.c:15-22, htmlout.c:17-24, latex.c:18-25, latexblk.c:19-26 States *)
Inductive dstate : Set := ST_OPEN | ST_TEXT | ST_CLOSE | ST_START.
(* the static variables of a driver: state, pending_eols, first_tag; latexblk.c:28-30 the
   three texts (unused in the other drivers) *)
Record drv := { d_state : dstate; d_eols : nat; d_first : bool; d_tag : string; d_loj : string; d_eng : string }.
(* textout.c:30-34, htmlout.c:31-35, latex.c:32-36, latexblk.c:36-44 initialise, with the
   static initialisers of pending_eols and first_tag *)
Definition initialise : drv :=
  {| d_state := ST_START; d_eols := 0; d_first := false; d_tag := ""; d_loj := ""; d_eng := "" |}.
(* assignments to one variable *)
Definition set_state (d : drv) (s : dstate) : drv :=
  {| d_state := s; d_eols := d_eols d; d_first := d_first d; d_tag := d_tag d; d_loj := d_loj d; d_eng := d_eng d |}.
Definition set_first (d : drv) (b : bool) : drv :=
  {| d_state := d_state d; d_eols := d_eols d; d_first := b; d_tag := d_tag d; d_loj := d_loj d; d_eng := d_eng d |}.
Definition set_tag (d : drv) (s : string) : drv :=
  {| d_state := d_state d; d_eols := d_eols d; d_first := d_first d; d_tag := s; d_loj := d_loj d; d_eng := d_eng d |}.
Definition set_loj (d : drv) (s : string) : drv :=
  {| d_state := d_state d; d_eols := d_eols d; d_first := d_first d; d_tag := d_tag d; d_loj := s; d_eng := d_eng d |}.
Definition set_eng (d : drv) (s : string) : drv :=
  {| d_state := d_state d; d_eols := d_eols d; d_first := d_first d; d_tag := d_tag d; d_loj := d_loj d; d_eng := s |}.
(* textout.c:83-87, htmlout.c:86-90, latex.c:112-116, latexblk.c:147-151 set_eols *)
Definition set_eols (d : drv) (n : nat) : drv :=
  {| d_state := d_state d; d_eols := d_eols d + n; d_first := d_first d; d_tag := d_tag d; d_loj := d_loj d; d_eng := d_eng d |}.

(* newline *)
Definition nl : string := String "010" "".
(* the double quote *)
Definition dq : string := String """" "".
(* textout.c:69-78, htmlout.c:72-81 clear_eols; sep is what is printed *)
Definition clear_eols (sep : nat -> string) (d : drv) : string * drv :=
  match d_eols d with
  | O => ("", d)
  | S _ => (sep (d_eols d),
            {| d_state := ST_OPEN; d_eols := 0; d_first := d_first d; d_tag := d_tag d; d_loj := d_loj d; d_eng := d_eng d |})
  end.
(* the first switch of write_open_bracket, write_lojban_text, write_translation (textout.c:103-112,
   211-220, 257-266; htmlout.c:107-116, 265-274, 309-318; latex.c:132-141, 309-318, 353-362;
   latexblk.c:174-183) *)
Definition before_text (gap : string) (d : drv) : string :=
  match d_state d with ST_START | ST_OPEN => "" | ST_TEXT | ST_CLOSE => gap end.
(* the first switch of write_close_bracket (textout.c:158-166, htmlout.c:168-176, latex.c:198-206,
   latexblk.c:246-254) *)
Definition before_close (d : drv) : string :=
  match d_state d with ST_START | ST_CLOSE | ST_TEXT => "" | ST_OPEN => " " end.
(* if (!first_tag) *)
Definition unless_first (d : drv) (s : string) : string := if d_first d then "" else s.
(* text[0] == '$' *)
Definition special (s : string) : bool := match s with String "$" _ => true | _ => false end.

(* run a driver over some calls: what is printed, and the variables after it *)
Fixpoint run (step : drv -> call -> outcome (string * drv)) (d : drv) (cs : list call) : outcome (string * drv) :=
  match cs with
  | [] => Ok ("", d)
  | c :: cs => do (o, d) <- step d c; do (o', d) <- run step d cs; Ok (o ++ o', d)
  end.
(* output.c:1505-1515 do_output: initialise, prologue, calls, epilogue *)
Definition print_with (prologue epilogue : string) (step : drv -> call -> outcome (string * drv)) (cs : list call) : outcome string :=
  do (o, _) <- run step initialise cs; Ok (prologue ++ o ++ epilogue).

(* ---- textout.c ---- *)

(* textout.c:114-139 *)
Definition text_open (b : bracket) : string :=
  match b with BR_NONE => "" | BR_ROUND => "(" | BR_SQUARE => "[" | BR_BRACE => "{" | BR_ANGLE => "<"
  | BR_CEIL => "^" | BR_FLOOR => "^" | BR_TRIANGLE => "<<" end.
(* textout.c:168-193 *)
Definition text_close (b : bracket) : string :=
  match b with BR_NONE => "" | BR_ROUND => ")" | BR_SQUARE => "]" | BR_BRACE => "}" | BR_ANGLE => ">"
  | BR_CEIL => "^" | BR_FLOOR => "^" | BR_TRIANGLE => ">>" end.
(* textout.c:235-245 write_special *)
Definition text_special (s : string) : string :=
  if String.eqb s "$LEFTARROW" then "<-" else if String.eqb s "$OPENQUOTE" then "``"
  else if String.eqb s "$CLOSEQUOTE" then "''" else "".
(* textout.c:69-78 *)
Definition text_eols (_ : nat) : string := nl ++ nl.
(* textout.c:98-347, one function for each call *)
Definition text_step (d : drv) (c : call) : outcome (string * drv) :=
  match c with
  | Open b _ => let (o, d) := clear_eols text_eols d in Ok (o ++ before_text " " d ++ text_open b, set_state d ST_OPEN)
  | Close b _ => Ok (before_close d ++ text_close b, set_state d ST_CLOSE)
  | Eols n => Ok ("", set_eols d n)
  | Loj s => Ok (before_text " " d ++ s, set_state d ST_TEXT)
  | Eng s => Ok (before_text " " d ++ (if special s then text_special s else "/" ++ s ++ "/"), set_state d ST_TEXT)
  | StartTags => Ok ("[", set_first d true)
  | EndTags => Ok (":]", set_state d ST_CLOSE)
  | StartTag => Ok (unless_first d ", ", set_first d false)
  | TagText br pl tr brac => Ok (br ++ pl ++ (if brac then " (" ++ tr ++ ")" else " " ++ tr), d)
  | Partial s => Ok (s, d)
  end.
(* textout.c:40-57 prologue and epilogue *)
Definition print_text : list call -> outcome string := print_with "" nl text_step.

(* ---- htmlout.c ---- *)

(* htmlout.c:92 PRINT_SUB *)
Definition html_sub (n : nat) : string := "<SUB><FONT SIZE=" ++ dq ++ "-3" ++ dq ++ ">" ++ zdec (Z.of_nat n) ++ "</FONT></SUB>".
(* htmlout.c:118-148 *)
Definition html_open (b : bracket) (n : nat) : string :=
  match b with
  | BR_NONE => ""
  | BR_ROUND => "(" ++ html_sub n | BR_SQUARE => "[" ++ html_sub n | BR_BRACE => "{" ++ html_sub n
  | BR_ANGLE => "&lt;" ++ html_sub n | BR_CEIL => "(" ++ html_sub n | BR_FLOOR => "(" ++ html_sub n
  | BR_TRIANGLE => "&lt;&lt;" ++ html_sub n
  end.
(* htmlout.c:178-208 *)
Definition html_close (b : bracket) (n : nat) : string :=
  match b with
  | BR_NONE => ""
  | BR_ROUND => ")" ++ html_sub n | BR_SQUARE => "]" ++ html_sub n | BR_BRACE => "}" ++ html_sub n
  | BR_ANGLE => "&gt;" ++ html_sub n | BR_CEIL => ")" ++ html_sub n | BR_FLOOR => ")" ++ html_sub n
  | BR_TRIANGLE => "&gt;&gt;" ++ html_sub n
  end.
(* htmlout.c:224-253 make_htmlsafe: the loop over p and q, with the room left in buf from q on.
   The cases of & < > write to q and do not move p. *)
Fixpoint htmlsafe (room : nat) (p : string) : outcome string :=
  match room, p with
  | O, _ => UB UB_bounds
  | S _, "" => Ok ""
  | S r, String c p' =>
      if Ascii.eqb c "&" then
        match room with
        | S (S (S (S (S (S _ as r))))) => do s <- htmlsafe r p; Ok ("&amp;" ++ s)
        | _ => UB UB_bounds
        end
      else if Ascii.eqb c "<" then
        match room with
        | S (S (S (S (S _ as r)))) => do s <- htmlsafe r p; Ok ("&lt;" ++ s)
        | _ => UB UB_bounds
        end
      else if Ascii.eqb c ">" then
        match room with
        | S (S (S (S (S _ as r)))) => do s <- htmlsafe r p; Ok ("&gt;" ++ s)
        | _ => UB UB_bounds
        end
      else do s <- htmlsafe r p'; Ok (String c s)
  end.
(* htmlout.c:227 buf *)
Definition html_room : nat := N.to_nat 65536.
Definition make_htmlsafe (s : string) : outcome string := htmlsafe html_room s.
(* htmlout.c:288-298 write_special *)
Definition html_special (s : string) : string :=
  if String.eqb s "$LEFTARROW" then "&lt;-"
  else if String.eqb s "$OPENQUOTE" then "<FONT SIZE=+2>&quot;</FONT>"
  else if String.eqb s "$CLOSEQUOTE" then "<FONT SIZE=+2>&quot;</FONT>" else "".
(* htmlout.c:72-81 *)
Definition html_eols (_ : nat) : string := nl ++ "<P><P>" ++ nl.
(* htmlout.c:102-392, one function for each call *)
Definition html_step (d : drv) (c : call) : outcome (string * drv) :=
  match c with
  | Open b n => let (o, d) := clear_eols html_eols d in Ok (o ++ before_text " " d ++ html_open b n, set_state d ST_OPEN)
  | Close b n => Ok (before_close d ++ html_close b n, set_state d ST_CLOSE)
  | Eols n => Ok ("", set_eols d n)
  | Loj s => Ok (before_text nl d ++ "<B>" ++ s ++ "</B>", set_state d ST_TEXT)
  | Eng s =>
      if special s then Ok (before_text nl d ++ html_special s, set_state d ST_TEXT)
      else do e <- make_htmlsafe s; Ok (before_text nl d ++ "<I>" ++ e ++ "</I>", set_state d ST_TEXT)
  | StartTags => Ok ("<U><FONT SIZE=-1>[", set_first d true)
  | EndTags => Ok (":] </FONT></U>", d)
  | StartTag => Ok (unless_first d ", ", set_first d false)
  | TagText br pl tr brac =>
      do e <- make_htmlsafe tr; Ok (br ++ pl ++ (if brac then " (" ++ e ++ ")" else " " ++ e) ++ nl, d)
  | Partial s => Ok (s, d)
  end.
(* htmlout.c:42-60 *)
Definition html_prologue : string :=
  "<HTML>" ++ nl ++ "<HEAD>" ++ nl ++ "<TITLE>Lojban translation</TITLE>" ++ nl ++ "<BODY>" ++ nl.
Definition html_epilogue : string := "</BODY>" ++ nl.
Definition print_html : list call -> outcome string := print_with html_prologue html_epilogue html_step.

(* ---- latex.c ---- *)

(* latex.c:145, 212 *)
Definition latex_sub (n : nat) : string := "{}$^{\textit{\scriptsize " ++ zdec (Z.of_nat n) ++ "}}$".
(* latex.c:143-177 *)
Definition latex_open (b : bracket) (n : nat) : string :=
  match b with
  | BR_NONE => ""
  | BR_ROUND => "(" ++ latex_sub n ++ " " | BR_SQUARE => "[" ++ latex_sub n ++ " "
  | BR_BRACE => "\{" ++ latex_sub n ++ " " | BR_ANGLE => "$\langle$" ++ latex_sub n ++ " "
  | BR_CEIL => "$\lceil$" ++ latex_sub n ++ " " | BR_FLOOR => "$\lfloor$" ++ latex_sub n ++ " "
  | BR_TRIANGLE => "{\large{} $\triangleleft$}" ++ latex_sub n ++ " "
  end.
(* latex.c:208-242 *)
Definition latex_close (b : bracket) (n : nat) : string :=
  match b with
  | BR_NONE => ""
  | BR_ROUND => ")" ++ latex_sub n ++ " " | BR_SQUARE => "]" ++ latex_sub n ++ " "
  | BR_BRACE => "\}" ++ latex_sub n ++ " " | BR_ANGLE => "$\rangle$" ++ latex_sub n ++ " "
  | BR_CEIL => "$\rceil$" ++ latex_sub n ++ " " | BR_FLOOR => "$\rfloor$" ++ latex_sub n ++ " "
  | BR_TRIANGLE => "{\large{} $\triangleright$}" ++ latex_sub n ++ " "
  end.
(* latex.c:267-289: the cases with a backslash, and with dollars *)
Definition tex_escaped (c : ascii) : bool := match c with "^" | "&" | "{" | "}" | "%" | "_" | "#" => true | _ => false end%char.
Definition tex_math (c : ascii) : bool := match c with "<" | ">" => true | _ => false end%char.
(* latex.c:260-295 make_texsafe without the bound of buf *)
Fixpoint texsafe (s : string) : string :=
  match s with
  | "" => ""
  | String c r =>
      if tex_escaped c then String "\" (String c (texsafe r))
      else if tex_math c then String "$" (String c (String "$" (texsafe r)))
      else String c (texsafe r)
  end.
(* latex.c:260-295; buf is written from the front *)
Definition make_texsafe (s : string) : outcome string := put 65536 (texsafe s).
(* latex.c:332-342 write_special *)
Definition latex_special (s : string) : string :=
  if String.eqb s "$LEFTARROW" then "{\reflectbox{\zd\char233}}" else if String.eqb s "$OPENQUOTE" then "``"
  else if String.eqb s "$CLOSEQUOTE" then "''" else "".
(* latex.c:91-106 clear_eols *)
Definition latex_eols (n : nat) : string := nl ++ nl ++ "\vspace{" ++ (if Nat.ltb 1 n then "1.50" else "1.00") ++ "ex}".
(* latex.c:127-425, one function for each call *)
Definition latex_step (d : drv) (c : call) : outcome (string * drv) :=
  match c with
  | Open b n => let (o, d) := clear_eols latex_eols d in Ok (o ++ before_text " " d ++ latex_open b n, set_state d ST_OPEN)
  | Close b n => Ok (before_close d ++ latex_close b n, set_state d ST_CLOSE)
  | Eols n => Ok ("", set_eols d n)
  | Loj s => Ok (before_text nl d ++ "\mbox{\textbf{" ++ s ++ "}\/}", set_state d ST_TEXT)
  | Eng s =>
      if special s then Ok (before_text nl d ++ latex_special s, set_state d ST_TEXT)
      else do e <- make_texsafe s; Ok (before_text nl d ++ "\textsl{\small{}" ++ e ++ "}", set_state d ST_TEXT)
  | StartTags => Ok ("\textsl{\footnotesize{}[}", set_first d true)
  | EndTags => Ok ("\textsl{\footnotesize{}~:] }", d)
  | StartTag => Ok (unless_first d ("\textsl{\footnotesize{}, }" ++ nl), set_first d false)
  | TagText br pl tr brac =>
      do e <- make_texsafe tr;
      Ok ("\textsl{\footnotesize{}" ++ br ++ pl ++ (if brac then " (" ++ e ++ ")" else " " ++ e) ++ "}" ++ nl, d)
  | Partial s => Ok ("\textsl{\footnotesize{}" ++ s ++ "}" ++ nl, d)
  end.
(* latex.c:43-69; the font and page settings are left out *)
Definition latex_prologue : string := "\begin{document}" ++ nl.
(* latex.c:75-79 *)
Definition latex_epilogue : string := "\end{document}" ++ nl.
Definition print_latex : list call -> outcome string := print_with latex_prologue latex_epilogue latex_step.

(* ---- latexblk.c ---- *)

(* latexblk.c:188 *)
Definition blk_sub (n : nat) : string := "{}$^{\IS{" ++ zdec (Z.of_nat n) ++ "}}$".
(* latexblk.c:185-219 *)
Definition blk_open (b : bracket) (n : nat) : string :=
  match b with
  | BR_NONE => ""
  | BR_ROUND => "(" ++ blk_sub n ++ " " | BR_SQUARE => "[" ++ blk_sub n ++ " " | BR_BRACE => "\{" ++ blk_sub n ++ " "
  | BR_ANGLE => "$\langle$" ++ blk_sub n ++ " " | BR_CEIL => "$\lceil$" ++ blk_sub n ++ " "
  | BR_FLOOR => "$\lfloor$" ++ blk_sub n ++ " " | BR_TRIANGLE => "\TL{}" ++ blk_sub n ++ " "
  end.
(* latexblk.c:256-290 *)
Definition blk_close (b : bracket) (n : nat) : string :=
  match b with
  | BR_NONE => ""
  | BR_ROUND => ")" ++ blk_sub n ++ " " | BR_SQUARE => "]" ++ blk_sub n ++ " " | BR_BRACE => "\}" ++ blk_sub n ++ " "
  | BR_ANGLE => "$\rangle$" ++ blk_sub n ++ " " | BR_CEIL => "$\rceil$" ++ blk_sub n ++ " "
  | BR_FLOOR => "$\rfloor$" ++ blk_sub n ++ " " | BR_TRIANGLE => "\TR{}" ++ blk_sub n ++ " "
  end.
(* latexblk.c:103-115 clear_eols *)
Definition blk_eols (n : nat) : string := nl ++ nl ++ (if Nat.ltb 1 n then "\vspace{2ex}" else "").
(* latexblk.c:128-134 the loop over tag_text *)
Fixpoint tag_lines (s : string) : string :=
  match s with
  | "" => ""
  | String c r => (if Ascii.eqb c "010" then "}\\[-3pt]{\ISS{}" else String c "") ++ tag_lines r
  end.
(* the text x[0] != 0 *)
Definition full (s : string) : bool := match s with "" => false | _ => true end.
(* latexblk.c:121-141 flush_block *)
Definition block (d : drv) : string :=
  "\BT[t]{l}{\bf " ++ d_loj d ++ "}\\{\it " ++ d_eng d ++ "}\\[-3pt]" ++ "{\ISS{}" ++ tag_lines (d_tag d) ++ "}\ET" ++ nl.
Definition flush_block (d : drv) : string * drv := (block d, set_tag (set_loj (set_eng d "") "") "").
(* if (loj_text[0] || eng_text[0]) flush_block() *)
Definition flush_some (d : drv) : string * drv := if full (d_loj d) || full (d_eng d) then flush_block d else ("", d).
(* latexblk.c:328-338 write_special *)
Definition blk_special (s : string) : string := latex_special s.
(* latexblk.c:28-30, 414, 429 *)
Definition blk_put : string -> outcome string := put 65536.
(* if (tag_text[1]) strcat(tag_text, "\n"): at least two characters.  tag_text[1] of an empty
   text is a stale character; the calls of output.c have a start_tags before, which puts
   one character there. *)
Definition tag_break (t : string) : string := match t with String _ (String _ _) => nl | _ => "" end.
(* latexblk.c:162-436, one function for each call *)
Definition blk_step (d : drv) (c : call) : outcome (string * drv) :=
  match c with
  | Open BR_NONE _ => Ok ("", d)
  | Open b n =>
      let (o1, d) := flush_some d in
      let (o2, d) := clear_eols blk_eols d in
      Ok (o1 ++ o2 ++ before_text " " d ++ blk_open b n, set_state d ST_OPEN)
  | Close BR_NONE _ => Ok ("", d)
  | Close b n => let (o, d) := flush_some d in Ok (o ++ before_close d ++ blk_close b n, set_state d ST_CLOSE)
  | Eols n => Ok ("", set_eols d n)
  | Loj s =>
      let (o1, d) := if full (d_eng d) then flush_block d else ("", d) in
      let (o2, d) := clear_eols blk_eols d in
      do l <- blk_put (d_loj d ++ " " ++ s); Ok (o1 ++ o2, set_loj d l)
  | Eng s =>
      if special s then do e <- blk_put (d_eng d ++ blk_special s); Ok ("", set_eng d e)
      else do x <- make_texsafe s; do e <- blk_put (d_eng d ++ " " ++ x); Ok ("", set_eng d e)
  | StartTags =>
      let (o1, d) := flush_some d in
      let (o2, d) := clear_eols blk_eols d in
      do t <- blk_put (d_tag d ++ "["); Ok (o1 ++ o2, set_first (set_tag d t) true)
  | EndTags => do t <- blk_put (d_tag d ++ ":]"); Ok ("", set_tag d t)
  | StartTag => do t <- blk_put (d_tag d ++ unless_first d ", "); Ok ("", set_first (set_tag d t) false)
  | TagText br pl tr brac =>
      do x <- make_texsafe tr;
      do b <- blk_put (br ++ pl ++ (if brac then " (" ++ x ++ ")" else " " ++ x));
      do t <- blk_put (d_tag d ++ tag_break (d_tag d) ++ b); Ok ("", set_tag d t)
  | Partial s =>
      do b <- blk_put s; do t <- blk_put (d_tag d ++ tag_break (d_tag d) ++ b); Ok ("", set_tag d t)
  end.
(* latexblk.c:50-84; the settings are left out.  latexblk.c:441 the epilogue is that of latex.c *)
Definition print_latex_block : list call -> outcome string :=
  print_with ("\begin{document}" ++ nl ++ "\small" ++ nl) latex_epilogue blk_step.
