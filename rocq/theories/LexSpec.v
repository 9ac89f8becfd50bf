(* What reading a text means, without the reader's variables. *)
From Coq Require Import String Ascii List NArith Bool Arith.
From Verif Require Import Base TokData CmavoData TokModel LujvoSpec MorfModel MorfSpec.
Import ListNotations.
Open Scope N_scope.
Open Scope list_scope.

(* ---- cmavo ---- *)
(* the table lists the word with that number and selma'o *)
Definition listed (w : list ascii) (code : N) (s : tok) : Prop := In (code, string_of_list_ascii w, s) cmavo_cells.

(* ---- texts with comments ---- *)
(* what can stand between ( and the ) that closes it *)
Inductive inside : list ascii -> Prop :=
| in_nil : inside []
| in_char c t : c <> "("%char -> c <> ")"%char -> inside t -> inside (c :: t)
| in_nested a t : inside a -> inside t -> inside ("("%char :: a ++ ")"%char :: t).
Inductive item : Type := Ch (c : ascii) | Note (a : list ascii).
Definition proper (i : item) : Prop := match i with Ch c => c <> "("%char | Note a => inside a end.
Definition item_text (i : item) : list ascii := match i with Ch c => [c] | Note a => "("%char :: a ++ [")"%char] end.
Definition written (is : list item) : list ascii := concat (map item_text is).
(* every comment replaced by a space *)
Definition spaced (i : item) : item := match i with Ch c => Ch c | Note _ => Ch " " end.

(* ---- words ---- *)
Definition nl : ascii := "010".
Definition numeral (c : ascii) : option string :=
  option_map snd (find (fun x => Ascii.eqb (fst x) c)
    [("0"%char, "no"%string); ("1"%char, "pa"%string); ("2"%char, "re"%string); ("3"%char, "ci"%string); ("4"%char, "vo"%string); ("5"%char, "mu"%string); ("6"%char, "xa"%string); ("7"%char, "ze"%string);
     ("8"%char, "bi"%string); ("9"%char, "so"%string); (":"%char, "pi'e"%string)]).
Definition space (c : ascii) : bool := existsb (Ascii.eqb c) [" "; "009"; nl; "."; ">"]%char.
Definition word_char (c : ascii) : Prop := space c = false /\ numeral c = None /\ c <> "("%char.
Definition word_item (i : item) : Prop := match i with Ch c => word_char c | Note _ => False end.

(* what a text consists of: words and numbers with the place where they begin, ends
   of lines, and comments *)
Inductive event : Type := Word (w : list ascii) (l c : N) | Number (w : string) (l c : N) | Eol | Gap.
(* the place after a text *)
Fixpoint past (l c : N) (t : list ascii) : N * N :=
  match t with [] => (l, c) | x :: t => if Ascii.eqb x nl then past (l + 1) 1 t else past l (c + 1) t end.
(* [reads l c is e]: the items from line l, column c on are e *)
Inductive reads : N -> N -> list item -> list event -> Prop :=
| rd_nil l c : reads l c [] []
| rd_note l c a is e l' c' : past l c (item_text (Note a)) = (l', c') -> reads l' c' is e -> reads l c (Note a :: is) (Gap :: e)
| rd_space l c x is e : space x = true -> x <> nl -> reads l (c + 1) is e -> reads l c (Ch x :: is) e
| rd_eol l c is e : reads (l + 1) 1 is e -> reads l c (Ch nl :: is) (Eol :: e)
| rd_number l c x w is e : numeral x = Some w -> reads l (c + 1) is e -> reads l c (Ch x :: is) (Number w l c :: e)
| rd_word l c w is e : w <> [] -> Forall word_char w -> (forall i is', is = i :: is' -> ~ word_item i) ->
    reads l (c + N.of_nat (length w)) is e -> reads l c (map Ch w ++ is) (Word w l c :: e).

(* what the lexer is told of it.  The place is the right one, except that after a
   number the place of the number is kept until the end of the next word or of the
   next comment. *)
Inductive call : Type := Call (w : list ascii) (l c : N) | Line.
Fixpoint calls (kept : option (N * N)) (e : list event) : list call :=
  match e with
  | [] => []
  | Word w l c :: e => let p := match kept with Some p => p | None => (l, c) end in Call w (fst p) (snd p) :: calls None e
  | Number w l c :: e =>
      let p := match kept with Some p => p | None => (l, c) end in
      Call (list_ascii_of_string w) (fst p) (snd p) :: calls (Some p) e
  | Eol :: e => Line :: calls kept e
  | Gap :: e => calls None e
  end.

(* ---- the tokens of one word ---- *)
(* what a cmavo becomes: the token, if any, and whether there is a complaint *)
Inductive cmavo_token (p : list ascii) : option ndata -> bool -> Prop :=
| ct_known code s : listed p code s -> cmavo_token p (Some (N_CMAVO s code false)) false
| ct_unknown : (forall code s, ~ listed p code s) ->
    Forall (fun c => In c (list_ascii_of_string "abcdefgijklmnoprstuvxyz'")) p ->
    cmavo_token p (Some (N_GARBAGE (string_of_list_ascii p))) true
| ct_bad : ~ Forall (fun c => In c (list_ascii_of_string "abcdefgijklmnoprstuvxyz'")) p -> cmavo_token p None true.
(* the tokens of the cmavo ps, the first at column c *)
Inductive cmavo_tokens : list (list ascii) -> N -> list (ndata * N) -> bool -> Prop :=
| cts_nil c : cmavo_tokens [] c [] false
| cts_cons p ps c d b ts b' : cmavo_token p d b -> cmavo_tokens ps (c + N.of_nat (length p)) ts b' ->
    cmavo_tokens (p :: ps) c ((match d with Some d => [(d, c)] | None => [] end) ++ ts) (b || b').

(* ---- unfinished comments ---- *)
Inductive open_end : list ascii -> Prop :=
| oe_here a : inside a -> open_end a
| oe_deeper a b : inside a -> open_end b -> open_end (a ++ "("%char :: b).

(* ---- the same but for places ---- *)
Definition unplaced (n : node) : node := match n with Node d _ _ b g k u => Node d 0 0 b g k u end.

(* ---- what a text says ---- *)
(* the kind of the last word of a written word that is not a name and not all cmavo *)
Definition brivla_kind (t : morf_type) : option brivla_type :=
  match t with
  | MT_GISMU => Some BVT_GISMU | MT_LUJVO => Some BVT_LUJVO
  | MT_FUIVLA3 | MT_FUIVLA3_CVC | MT_FUIVLA3X | MT_FUIVLA3X_CVC => Some BVT_FUIVLA3 | MT_FUIVLA4 => Some BVT_FUIVLA4
  | _ => None
  end.
(* outside a quotation; after zoi or la'o; in a quotation *)
Inductive quoting : Type :=
| Plain | Opened (form : string) (l c : N) | Quoted (form : string) (d : list ascii) (l c : N) (ws : list (list ascii)).
Definition quote_words : list string := ["zoi"%string; "la'o"%string].
Definition spoken (ws : list (list ascii)) : string := String.concat " " (map string_of_list_ascii ws).
(* a name with a mark in it: what comes before the first mark, the mark, the rest *)
Definition marked (w pre m rest : list ascii) : Prop :=
  w = pre ++ m ++ rest /\ (exists c r, m = c :: r /\ comma c = false) /\ (exists c r, rest = c :: r /\ comma c = false)
  /\ exists c post, mark_in (plain w) (plain pre) (plain m) c post
     /\ forall pre' m' c' post', mark_in (plain w) pre' m' c' post' -> (length (plain (pre ++ m)) <= length (pre' ++ m'))%nat.
Definition at_line (l : N) (ts : list (ndata * N)) : list (ndata * N * N) := map (fun x => (fst x, l, snd x)) ts.
Definition ends_consonant (l : list ascii) : Prop := exists q x, l = q ++ [x] /\ vow x = false /\ y x = false /\ x <> "'"%char.
(* [says cult q w l c ts b q']: the word w at line l, column c gives the tokens ts
   (with their places), and a complaint if b *)
Inductive says (cult : bool) : quoting -> list ascii -> N -> N -> list (ndata * N * N) -> bool -> quoting -> Prop :=
| s_open f l c : In f quote_words -> says cult Plain (list_ascii_of_string f) l c [] false (Opened f l c)
| s_delimiter f l0 c0 w l c : (length w < 64)%nat -> says cult (Opened f l0 c0) w l c [] false (Quoted f w l0 c0 [])
| s_end f d l0 c0 ws l c : says cult (Quoted f d l0 c0 ws) d l c [(N_ZOI f (string_of_list_ascii d) (spoken ws), l0, c0)] false Plain
| s_quoted f d l0 c0 ws w l c : w <> d -> says cult (Quoted f d l0 c0 ws) w l c [] false (Quoted f d l0 c0 (ws ++ [w]))
| s_wrong w l c r : ~ In (string_of_list_ascii w) quote_words -> morf_scan cult w = Ok r -> In (sc_type r) [MT_BOGUS; MT_BAD_UPPERCASE] ->
    says cult Plain w l c [] true Plain
| s_cmavo w l c r ps ts b : ~ In (string_of_list_ascii w) quote_words -> morf_scan cult w = Ok r -> sc_type r = MT_CMAVOS ->
    split_at w (sc_starts r) ps -> ps <> [] -> cmavo_tokens ps c ts b -> says cult Plain w l c (at_line l ts) b Plain
| s_brivla w l c r ty front lastp ts b : ~ In (string_of_list_ascii w) quote_words -> morf_scan cult w = Ok r -> brivla_kind (sc_type r) = Some ty ->
    split_at w (sc_starts r) (front ++ [lastp]) -> cmavo_tokens front c ts b ->
    says cult Plain w l c (at_line l (ts ++ [(N_BRIVLA (string_of_list_ascii lastp) ty, c + N.of_nat (length (concat front)))])) b Plain
| s_name w l c r : ~ In (string_of_list_ascii w) quote_words -> morf_scan cult w = Ok r -> sc_type r = MT_CMENE ->
    (forall pre m x post, ~ mark_in (plain w) pre m x post) -> ends_consonant (plain w) -> says cult Plain w l c [(N_CMENE (string_of_list_ascii w), l, c)] false Plain
| s_marked w l c r pre m rest ts1 b1 q1 ts2 b2 q2 ts3 b3 q3 : ~ In (string_of_list_ascii w) quote_words -> morf_scan cult w = Ok r -> sc_type r = MT_CMENE ->
    marked w pre m rest -> pre <> [] -> (length m < 8)%nat ->
    says cult Plain pre l c ts1 b1 q1 ->
    says cult q1 m l (c + N.of_nat (length pre)) ts2 b2 q2 ->
    says cult q2 rest l (c + N.of_nat (length (pre ++ m))) ts3 b3 q3 ->
    says cult Plain w l c (ts1 ++ ts2 ++ ts3) (b1 || b2 || b3) q3
| s_mark_first w l c r m rest ts2 b2 q2 ts3 b3 q3 : ~ In (string_of_list_ascii w) quote_words -> morf_scan cult w = Ok r -> sc_type r = MT_CMENE ->
    marked w [] m rest -> (length m < 8)%nat ->
    says cult Plain m l c ts2 b2 q2 ->
    says cult q2 rest l (c + N.of_nat (length m)) ts3 b3 q3 ->
    says cult Plain w l c (ts2 ++ ts3) (b2 || b3) q3.
(* a whole text; the result also tells where lines end *)
Inductive out : Type := Tk (d : ndata) (l c : N) | EndLine.
Definition outs (ts : list (ndata * N * N)) : list out := map (fun x => Tk (fst (fst x)) (snd (fst x)) (snd x)) ts.
Inductive says_all (cult : bool) : quoting -> list call -> list out -> bool -> quoting -> Prop :=
| sa_nil q : says_all cult q [] [] false q
| sa_line q cs o b q' : says_all cult q cs o b q' -> says_all cult q (Line :: cs) (EndLine :: o) b q'
| sa_word q w l c cs ts b q1 o b' q' : says cult q w l c ts b q1 -> says_all cult q1 cs o b' q' ->
    says_all cult q (Call w l c :: cs) (outs ts ++ o) (b || b') q'.
(* the number of line ends before the first token, and the tokens each with the number
   of line ends before the next *)
Fixpoint counted (o : list out) : N * list (ndata * N * N * N) :=
  match o with
  | [] => (0, [])
  | EndLine :: o => let (n, ts) := counted o in (n + 1, ts)
  | Tk d l c :: o => let (n, ts) := counted o in (0, (d, l, c, n) :: ts)
  end.
Definition in_quote (q : quoting) : bool := match q with Quoted _ _ _ _ _ => true | _ => false end.

(* ---- places ---- *)
(* t has s at line l, column c (both counted from 1) *)
Definition starts_at (t : list ascii) (l c : N) (s : list ascii) : Prop := exists a b, t = a ++ s ++ b /\ past 1 1 a = (l, c).
(* how a token is written *)
Definition token_text (d : ndata) (t : list ascii) : Prop :=
  match d with
  | N_CMAVO s code _ => listed t code s
  | N_BRIVLA x _ | N_CMENE x | N_GARBAGE x | N_ZOI x _ _ => t = list_ascii_of_string x
  | _ => False
  end.
Definition no_number (e : list event) : Prop := Forall (fun x => match x with Number _ _ _ => False | _ => True end) e.
Definition begins_comma (w : list ascii) : bool := match w with c :: _ => comma c | [] => false end.
Definition no_comma_first (e : list event) : Prop := Forall (fun x => match x with Word w _ _ => begins_comma w = false | _ => True end) e.

(* ---- letters ---- *)
Definition sounds (t : list ascii) : list ascii := filter (fun c => negb (Ascii.eqb c "," || Ascii.eqb c " ")) t.
(* all that a token tells *)
Definition token_sounds (d : ndata) (t : list ascii) : Prop :=
  match d with
  | N_ZOI f d x => t = sounds (list_ascii_of_string f ++ list_ascii_of_string d ++ list_ascii_of_string x ++ list_ascii_of_string d)
  | N_CMAVO s code _ => listed t code s
  | N_BRIVLA x _ | N_CMENE x => t = sounds (list_ascii_of_string x)
  | _ => False
  end.
Definition event_word (x : event) : list ascii :=
  match x with Word w _ _ => w | Number w _ _ => list_ascii_of_string w | _ => [] end.
(* a quotation word at the very end of the text is dropped *)
Definition dropped (q : quoting) : list ascii := match q with Opened f _ _ => list_ascii_of_string f | _ => [] end.
