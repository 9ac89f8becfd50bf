(* The word glosser cmafihe: cm_scan.l, cm_gather.c, cm_translate.c, cm_main.c, and the text
   format of cm_output.c (its block format is in LayoutModel.v).
   A C string is the list of its characters before the NUL. *)
From Coq Require Import String Ascii List NArith ZArith Bool Arith.
From Verif Require Import Base LayoutModel.
Import ListNotations.
Open Scope list_scope.

(* the NUL that ends a string (cm_translate.c:210-219, cm_gather.c:150-200) *)
Definition nul : ascii := "000"%char.
(* strcpy or strcat into a buffer of n characters (cm_translate.c:41-104, cm_gather.c:133-139) *)
Definition fit (n : N) (s : txt) : outcome txt := if N.ltb (N.of_nat (List.length s)) n then Ok s else UB UB_bounds.
(* strchr(s, c) != NULL: true of the NUL too (cm_translate.c:186, cm_gather.c:186) *)
Definition strchr (s : string) (c : ascii) : bool := existsb (Ascii.eqb c) (lit s) || Ascii.eqb c nul.
(* w[i]: the characters and the NUL after them (cm_translate.c:185-219) *)
Definition at_ (w : txt) (i : nat) : outcome ascii :=
  match nth_error w i with Some c => Ok c | None => if Nat.eqb i (List.length w) then Ok nul else UB UB_bounds end.

(* ---------- the scanner ---------- *)

(* The patterns of flex that occur in cm_scan.l:14-63.  A set of characters is a function. *)
Inductive re : Type := Nul | Eps | Chr (f : ascii -> bool) | Cat (a b : re) | Alt (a b : re) | Star (a : re).
(* ? (cm_scan.l:18, 22, 30) *)
Definition opt (a : re) : re := Alt a Eps.
(* + (cm_scan.l:35-37, 50) *)
Definition plus (a : re) : re := Cat a (Star a).
(* a character (cm_scan.l:17-37) *)
Definition one (c : ascii) : re := Chr (Ascii.eqb c).
(* a set of characters (cm_scan.l:14-16) *)
Definition any_of (s : string) : re := Chr (fun c => existsb (Ascii.eqb c) (lit s)).
(* flex itself is not in /repo: its documented rule, longest match and first rule on a tie
   (cm_scan.l:41-43 relies on it), with derivatives in place of its tables *)
(* whether a pattern matches the empty text, and what is left of it after a character *)
Fixpoint nullable (r : re) : bool :=
  match r with
  | Nul => false | Eps => true | Chr _ => false
  | Cat a b => nullable a && nullable b
  | Alt a b => nullable a || nullable b
  | Star _ => true
  end.
(* what is left of a pattern after a character *)
Fixpoint deriv (c : ascii) (r : re) : re :=
  match r with
  | Nul => Nul | Eps => Nul
  | Chr f => if f c then Eps else Nul
  | Cat a b => if nullable a then Alt (Cat (deriv c a) b) (deriv c b) else Cat (deriv c a) b
  | Alt a b => Alt (deriv c a) (deriv c b)
  | Star a => Cat (deriv c a) (Star a)
  end.
(* the length of the longest match at the start of a text *)
Fixpoint longest (r : re) (s : txt) : option nat :=
  let here := if nullable r then Some 0 else None in
  match s with
  | [] => here
  | c :: s => match longest (deriv c r) s with Some n => Some (S n) | None => here end
  end.
(* of all the rules the one with the longest match, the first of them on a tie *)
Fixpoint best {A} (rules : list (re * A)) (s : txt) : option (nat * A) :=
  match rules with
  | [] => None
  | (r, a) :: rules =>
      match longest r s, best rules s with
      | Some n, Some (m, b) => if Nat.leb m n then Some (n, a) else Some (m, b)
      | Some n, None => Some (n, a)
      | None, o => o
      end
  end.

(* cm_scan.l:14-39 *)
(* cm_scan.l:14 *)
Definition C_ : re := any_of "bcdfgjklmnprstvxz".
(* cm_scan.l:15 *)
Definition CNR : re := any_of "bcdfgjklmnpstvxz".
(* cm_scan.l:16 *)
Definition V_ : re := any_of "aeiou".
(* cm_scan.l:17 *)
Definition L_ : re := Alt C_ (Alt V_ (Alt (one "y") (one "'"))).
(* cm_scan.l:18 *)
Definition LC : re := Cat L_ (opt (one ",")).
(* cm_scan.l:22 *)
Definition VV : re := Cat V_ (opt V_).
(* cm_scan.l:23 *)
Definition VVY : re := Alt VV (one "y").
(* cm_scan.l:25 *)
Definition CCC : re := Cat C_ (Cat VVY (Star (Cat (one "'") VVY))).
(* cm_scan.l:26 *)
Definition VCC : re := Cat VVY (Star (Cat (one "'") VVY)).
(* cm_scan.l:28 *)
Definition CMT : re := Star (Alt CCC (Cat (one ".") VCC)).
(* cm_scan.l:29 *)
Definition CM1 : re := Cat CCC CMT.
(* cm_scan.l:30 *)
Definition CM2 : re := Cat (opt (one ".")) (Cat VCC CMT).
(* cm_scan.l:31 *)
Definition CM_ : re := Alt CM1 CM2.
(* cm_scan.l:35 *)
Definition BM1 : re := Cat C_ (Cat V_ (Cat (opt (one "'")) (Cat V_ (Cat (one "r") (Cat CNR (Cat (plus L_) V_)))))).
(* cm_scan.l:36 *)
Definition BM2 : re := Cat C_ (Cat V_ (Cat (opt (one "'")) (Cat V_ (Cat (one "n") (Cat (one "r") (Cat (plus L_) V_)))))).
(* cm_scan.l:37 *)
Definition BM3 : re := Cat C_ (Cat V_ (Cat C_ (Cat (one "y") (Cat C_ (Cat (plus L_) V_))))).
(* cm_scan.l:38 *)
Definition BM : re := Alt BM1 (Alt BM2 BM3).
(* cm_scan.l:54 *)
Definition EOL : re := Cat (opt (one "013")) (one "010").

(* cm_gather.c:15-21; what is not gathered: printed to stderr (87-90) or discarded *)
Inductive kind : Set := TT_CMAVO | TT_BRIVLA | TT_CMENE | TT_NEWLINE | TT_PAREN | Fell | Skipped.
(* what a rule does besides: pdepth++ or pdepth-- *)
Inductive act : Set := Gather (k : kind) | Open | Close.
(* cm_scan.l:49-57, 62-63 *)
Definition initial_rules : list (re * act) :=
  [(BM, Gather TT_BRIVLA);
   (CM_, Gather TT_CMAVO);
   (Cat C_ (Cat (plus L_) V_), Gather TT_BRIVLA);
   (Cat (Cat (opt (one ".")) (Cat (Star LC) C_)) (opt (one ".")), Gather TT_CMENE);
   (plus L_, Gather Fell);
   (plus (Chr (fun c => Ascii.eqb c " " || Ascii.eqb c "009")), Gather Skipped);
   (EOL, Gather Skipped);
   (Cat EOL (plus EOL), Gather TT_NEWLINE);
   (any_of "([", Open);
   (plus (any_of "abcdefghijklmnopqrstuvwxyzABCDEFGHIJKLMNOPQRSTUVWXYZ"), Gather Fell);
   (Chr (fun c => negb (Ascii.eqb c "010")), Gather Fell)].
(* cm_scan.l:59-61 *)
Definition paren_rules : list (re * act) :=
  [(any_of "[(", Open);
   (plus (Chr (fun c => negb (existsb (Ascii.eqb c) (lit "[]()")))), Gather TT_PAREN);
   (any_of "])", Close)].

(* yylex (to the end of the file): the tokens with their text.  The condition PAREN holds
   from the first bracket until pdepth is 0 again (57, 59, 61). *)
Fixpoint scan (f : nat) (paren : bool) (pdepth : Z) (s : txt) : outcome (list (kind * txt)) :=
  match f with
  | 0 => NoFuel
  | S f =>
      match s with
      | [] => Ok []
      | _ =>
          match best (if paren then paren_rules else initial_rules) s with
          | None => UB UB_other
          | Some (n, a) =>
              let (k, st) := match a with
                             | Gather k => (k, (paren, pdepth))
                             | Open => (TT_PAREN, (true, pdepth + 1)%Z)
                             | Close => (TT_PAREN, (negb (pdepth - 1 =? 0)%Z, pdepth - 1)%Z)
                             end in
              do rest <- scan f (fst st) (snd st) (skipn n s);
              Ok ((k, firstn n s) :: rest)
          end
      end
  end.
(* cm_main.c: yylex reads the whole input; pdepth and the state start as cm_scan.l:11 and INITIAL *)
Definition yylex (s : txt) : outcome (list (kind * txt)) := scan (S (List.length s)) false 0 s.

Section GLOSS.
  (* dictaccs.c: dict_lookup *)
  Variable dict : txt -> option txt.

  (* cm_translate.c:25: the size of result; likewise buf and bufout (cm_gather.c:149-152) *)
  Definition big : N := 65536.
  (* cm_translate.c:23-37 translate *)
  Definition translate (w : txt) : outcome (option txt) :=
    match dict w with Some r => do r <- fit big r; Ok (Some r) | None => Ok None end.
  (* cm_translate.c:46-50, 93-97 *)
Definition or_ (t : option txt) (s : string) : txt := match t with Some t => t | None => lit s end.
  (* cm_translate.c:41-58 append_trans *)
  Definition append_trans (trans : option txt) (result : txt) (initial : bool) : outcome txt :=
    fit big (if initial then or_ trans "?" else result ++ lit "-" ++ or_ trans "?").
  (* cm_translate.c:63-104 translate_comp: the translation and the conversion afterwards *)
  Definition translate_comp (w : txt) (conversion : nat) : outcome (option txt * nat) :=
    do buf <- fit 64 w;
    if Nat.eqb conversion 0 then do trans <- translate w; Ok (trans, 0)
    else
      do buf <- fit 64 (buf ++ [ascii_of_nat (48 + conversion)]);
      do trans <- translate buf;
      match trans with
      | Some t => Ok (Some t, 0)
      | None =>
          let result := match conversion with
                        | 2 => lit "2nd conv-" | 3 => lit "3rd conv-" | 4 => lit "4th conv-" | 5 => lit "5th conv-" | _ => [] end in
          do trans <- translate w;
          do result <- fit big (result ++ or_ trans "??");
          Ok (Some result, conversion)
      end.
  (* cm_translate.c:150-153: strchr(w, 'y') - w *)
  Fixpoint find_y (w : txt) : option nat :=
    match w with [] => None | c :: w => if Ascii.eqb c "y" then Some 0 else option_map S (find_y w) end.
  (* cm_translate.c:152-160, 196-204 *)
  Definition conv_of (w : txt) : option nat :=
    let is_ s := if list_eq_dec ascii_dec (firstn 3 w) (lit s) then true else false in
    if is_ "sel"%string then Some 2 else if is_ "ter"%string then Some 3 else if is_ "vel"%string then Some 4 else if is_ "xel"%string then Some 5 else None.
  (* cm_translate.c:185-194 with k = 4, 210-219 with k = 3: whether a hyphen follows *)
  Definition hyphened (w : txt) (k : nat) (initial : bool) : outcome bool :=
    do c1 <- at_ w 1; do c2 <- at_ w (k - 1); do c3 <- at_ w k; do c4 <- at_ w (S k);
    Ok (strchr "aeiou" c1 && strchr "aeiou" c2 && initial && negb (Ascii.eqb c3 nul) &&
        (Ascii.eqb c3 "r" || Ascii.eqb c3 "n" && Ascii.eqb c4 "r")).
  (* cm_translate.c:110-228 translate_lujvo: the loop *)
  Fixpoint lujvo_loop (f : nat) (w : txt) (conversion : nat) (initial : bool) (result : txt) : outcome txt :=
    match f with
    | 0 => NoFuel
    | S f =>
        if Nat.eqb (List.length w) 5 then
          do x <- translate_comp w conversion; append_trans (fst x) result initial
        else if Nat.ltb (List.length w) 5 then
          do x <- translate_comp ("%"%char :: w) conversion;
          fit big (result ++ (if initial then [] else lit "-") ++ or_ (fst x) "?")
        else
          let piece k conversion := do x <- translate_comp ("%"%char :: firstn k w) conversion;
                                    do r <- append_trans (fst x) result initial; Ok (snd x, r) in
          let three := match conv_of w with Some c => Ok (c, result) | None => piece 3 conversion end in
          do x <- match find_y w with
                  | Some 3 => do x <- three; Ok (x, 4)
                  | Some 4 => do x <- piece 4 conversion; Ok (x, 5)
                  | _ =>
                      do c2 <- at_ w 2;
                      if Ascii.eqb c2 "'" then do x <- piece 4 conversion; do h <- hyphened w 4 initial; Ok (x, if h then 5 else 4)
                      else do x <- three; do h <- hyphened w 3 initial; Ok (x, if h then 4 else 3)
                  end;
          let '(c, r, n) := x in
          match skipn n w with [] => Ok r | w' => lujvo_loop f w' c false r end
    end.
  (* cm_translate.c:110-232 *)
  Definition translate_lujvo (w : txt) : outcome txt := lujvo_loop (S (List.length w)) w 0 true [].

  (* cm_translate.c:246-250 *)
  Definition is_consonant (c : ascii) : bool := strchr "bcdfgjklmnprstvxz" c.
  (* cm_translate.c:254-258 *)
  Definition is_consonant_not_r (c : ascii) : bool := strchr "bcdfgjklmnpstvxz" c.
  (* cm_translate.c:273-291: whether there is a hyphen between two characters *)
  Definition hyphen (a b c : ascii) : bool :=
    is_consonant_not_r a && Ascii.eqb b "r" && is_consonant_not_r c
    || is_consonant a && is_consonant c &&
       (Ascii.eqb a "n" && Ascii.eqb c "r" && Ascii.eqb b "l" || Ascii.eqb a "r" && Ascii.eqb c "n" && Ascii.eqb b "l" || Ascii.eqb b "n").
  (* cm_translate.c:271-292: the first i with 1 <= i < len - 2 *)
  Fixpoint find_hyphen (i : nat) (w : txt) : option nat :=
    match w with
    | a :: ((b :: c :: _ :: _) as w') => if hyphen a b c then Some i else find_hyphen (S i) w'
    | _ => None
    end.
  (* cm_translate.c:252-311 translate_unknown *)
  Definition translate_unknown (w : txt) : outcome txt :=
    match find_hyphen 1 w with
    | Some i =>
        do buf <- fit big (firstn i w);
        do t <- translate_lujvo buf;
        fit big (t ++ lit "-[" ++ skipn (S i) w ++ lit "]")
    | None => translate_lujvo w
    end.

  (* cm_gather.c:133-139 translate_selmao *)
  Definition translate_selmao (x : txt) : outcome (option txt) := do b <- fit 64 ("+"%char :: x); translate b.
  (* cm_gather.c:186-188: back from e to a letter that begins something; before the buffer
     there is nothing to read *)
  Fixpoint back (buf : txt) (e : nat) : outcome nat :=
    match e with
    | 0 => UB UB_bounds
    | S e => do c <- at_ buf e; if strchr "aeiuo'" c then back buf e else Ok e
    end.
  (* cm_gather.c:163-166 *)
  Definition sub (buf : txt) (p e : nat) : txt := firstn (e - p) (skipn p buf).
  (* cm_gather.c:161-190: the longest part from p to at most e that has a translation *)
  Fixpoint inner (f : nat) (transfn : txt -> outcome (option txt)) (buf : txt) (p e : nat) : outcome (option (nat * txt)) :=
    match f with
    | 0 => NoFuel
    | S f =>
        if Nat.ltb p e then
          do t <- transfn (sub buf p e);
          match t with
          | Some t => Ok (Some (e, t))
          | None => do e <- back buf e; inner f transfn buf p e
          end
        else Ok None
    end.
  (* cm_gather.c:195-197 *)
  Fixpoint skip_vowels (w : txt) : nat := match w with c :: w => if strchr "aeiou'" c then S (skip_vowels w) else 0 | [] => 0 end.
  (* cm_gather.c:178-181, 199-202 *)
  Definition glued (out t : txt) : outcome txt := fit big (out ++ (if empty out then [] else lit " ") ++ t).
  (* cm_gather.c:159-204 *)
  Fixpoint outer (f : nat) (transfn : txt -> outcome (option txt)) (buf : txt) (p : nat) (out : txt) : outcome txt :=
    match f with
    | 0 => NoFuel
    | S f =>
        if Nat.ltb p (List.length buf) then
          do x <- inner (S (List.length buf)) transfn buf p (List.length buf);
          match x with
          | Some (e, t) => do out <- glued out t; outer f transfn buf e out
          | None =>
              do out <- glued out (lit "?");
              let p := S p + skip_vowels (skipn (S p) buf) in
              do c <- at_ buf p;
              outer f transfn buf (if Ascii.eqb c "." then S p else p) out
          end
        else Ok out
    end.
  (* cm_gather.c:143-208 try_cmavo_fragment *)
  Definition try_cmavo_fragment (lojban : txt) (transfn : txt -> outcome (option txt)) : outcome txt :=
    do buf <- fit big lojban;
    outer (S (List.length buf)) transfn buf (match buf with c :: _ => if Ascii.eqb c "." then 1 else 0 | [] => 0 end) [].

  (* cm_gather.c:212-259 do_trans, for one node: selmao (not set for a brivla or a name) and
     trans *)
  Definition trans_node (n : kind * txt) : outcome (txt * txt) :=
    match fst n with
    | TT_CMAVO =>
        let x := match snd n with c :: w => if Ascii.eqb c "." then w else snd n | [] => [] end in
        do t <- translate x;
        match t with
        | Some t =>
            do buf <- fit 32 ("+"%char :: x);
            do s <- translate buf;
            Ok (or_ s "", t)
        | None =>
            do t <- try_cmavo_fragment (snd n) translate;
            do s <- try_cmavo_fragment (snd n) translate_selmao;
            Ok (s, t)
        end
    | TT_BRIVLA =>
        do t <- translate (snd n);
        match t with
        | Some t => Ok (lit "BRIVLA", t)
        | None => do t <- translate_unknown (snd n); Ok (lit "BRIVLA", t)
        end
    | TT_CMENE => Ok (lit "CMENE", [])
    | _ => Ok ([], [])
    end.
  (* cm_gather.c:36-98: what is gathered.  A TT_NEWLINE has no text; what fell through or was
     discarded is no node. *)
  Definition gathered (ts : list (kind * txt)) : list (kind * txt) :=
    flat_map (fun t => match fst t with Fell | Skipped => [] | TT_NEWLINE => [(TT_NEWLINE, [])] | _ => [t] end) ts.
  (* cm_gather.c:221-268 *)
  Fixpoint do_trans (ns : list (kind * txt)) : outcome (list (kind * txt * (txt * txt))) :=
    match ns with [] => Ok [] | n :: ns => do t <- trans_node n; do r <- do_trans ns; Ok ((n, t) :: r) end.
  (* cm_gather.c:263-280 do_output *)
  Definition calls (ns : list (kind * txt * (txt * txt))) : list cm_op :=
    map (fun n => match fst (fst n) with
                  | TT_NEWLINE => CNewline
                  | TT_PAREN => CParen (snd (fst n))
                  | _ => CWord (snd (fst n)) (fst (snd n)) (snd (snd n))
                  end) ns.
  (* cm_output.c:163-164, 188-190, 205-207: the format OF_TEXT *)
  Definition text_op (o : cm_op) : txt :=
    match o with
    | CWord lojban selmao trans => lojban ++ lit " <" ++ selmao ++ lit "> [" ++ trans ++ lit "] "
    | CNewline => eol
    | CParen t => lit "(" ++ t ++ lit ") "
    end.
  (* cm_output.c:95-106, 128: before and after the text in the format OF_LATEX *)
  Definition latex_start : txt :=
    lit "\documentclass[10pt]{article}" ++ eol ++ lit "\usepackage{geometry}" ++ eol
    ++ lit "\geometry{left=0.5in,right=0.5in,top=0.5in,bottom=0.5in,a4paper}" ++ eol
    ++ lit "\def\rmdefault{bch}" ++ eol ++ lit "\setlength{\parindent}{0pt}" ++ eol
    ++ lit "\setlength{\parskip}{1ex plus0.5ex minus0.5ex}" ++ eol ++ lit "\setlength{\baselineskip}{10pt}" ++ eol
    ++ lit "\def\arraystretch{0.7}" ++ eol ++ lit "\begin{document}" ++ eol.
  (* cm_output.c:128 *)
  Definition latex_end : txt := lit "\end{document}" ++ eol.
  (* cm_output.c:155-163, 185-187, 203-204: the format OF_LATEX *)
  Definition latex_op (o : cm_op) : txt :=
    match o with
    | CWord lojban selmao trans =>
        lit "\begin{tabular}[t]{l}" ++ lit "\textbf{\footnotesize " ++ lojban ++ lit "}\\" ++ eol
        ++ lit "\textrm{\footnotesize " ++ selmao ++ lit "}\\" ++ eol
        ++ lit "\textit{\footnotesize " ++ trans ++ lit "}" ++ eol
        ++ lit "\end{tabular}" ++ eol ++ lit "\rule{0in}{1.0\baselineskip}"
    | CNewline => eol ++ eol
    | CParen t => lit "\textrm{\footnotesize " ++ t ++ lit "}"
    end.
  (* cm.h, cm_main.c:27-58: no option, -b with the width (80, or after -w), -l; PLIST is not
     modelled *)
  Inductive format : Type := OF_TEXT | OF_TEXTBLK (width : Z) | OF_LATEX.
  (* cm_main.c:75-88: what is printed *)
  Definition cmafihe (ofmt : format) (input : txt) : outcome txt :=
    do ts <- yylex input;
    do ns <- do_trans (gathered ts);
    match ofmt with
    | OF_TEXT => Ok (List.concat (map text_op (calls ns)) ++ eol)
    | OF_TEXTBLK width => do out <- cm_run width (calls ns); Ok (out ++ eol)
    | OF_LATEX => Ok (latex_start ++ List.concat (map latex_op (calls ns)) ++ latex_end ++ eol ++ eol)
    end.
End GLOSS.

(* a dictionary for examples (dictaccs.c) *)
Definition ex_dict (l : list (string * string)) (w : txt) : option txt :=
  option_map (fun e => lit (snd e)) (find (fun e => if list_eq_dec ascii_dec (lit (fst e)) w then true else false) l).
