(* textblk.c (interlinear output) and the block format of cm_output.c.
   A C string is the list of its characters before the NUL.  The variable state
   (textblk.c:31) is written but never read; it is left out.  Numbers that are printed
   (the subscripts) are given as text. *)
From Coq Require Import String Ascii List NArith ZArith Bool Arith.
From Verif Require Import Base.
Import ListNotations.
Open Scope list_scope.

Definition txt := list ascii.
Definition lit (s : string) : txt := list_ascii_of_string s.
(* textblk.c:22, 34; cm_output.c:22 *)
Definition buffer_size : nat := 512.
Definition max_tags : nat := 32.
Definition empty (t : txt) : bool := match t with [] => true | _ => false end.
Definition eol : txt := ["010"%char].

(* strcat to a buffer of BUFFER_SIZE *)
Definition cat (dst src : txt) : outcome txt :=
  if Nat.leb buffer_size (List.length dst + List.length src) then UB UB_bounds else Ok (dst ++ src).

(* textblk.c:37-40: the block being built; [b_used] is tags_used *)
Record blk : Type := Blk { b_loj : txt; b_eng : txt; b_tags : list txt; b_used : nat }.
(* textblk.c:43-47: the line being built *)
Record line : Type := Line { l_loj : txt; l_eng : txt; l_tags : list txt; l_used : nat; l_width : nat }.
(* textblk.c:20, 107, 365 and what has been printed *)
Record tb : Type := TB { t_blk : blk; t_line : line; t_pending : N; t_first : bool; t_max : Z; t_out : txt }.

(* textblk.c:69-74, 183-189 *)
Definition blk0 : blk := Blk [] [] (repeat [] max_tags) 0.
(* textblk.c:49-62 clear_line_buffer *)
Definition line0 : line := Line [] [] (repeat [] max_tags) 0 0.
(* textblk.c:64-80 initialise; the program starts with pending_eols = 0 (107) and
   first_tag = 0 (365) *)
Definition tb0 (width : Z) : tb := TB blk0 line0 0 false width [].

(* textblk.c:86-102 flush_line: what is printed *)
Definition line_text (l : line) : txt :=
  l_loj l ++ eol ++ l_eng l ++ eol ++ concat (map (fun t => t ++ eol) (firstn (l_used l) (l_tags l))) ++ eol.
Definition flush_line (s : tb) : tb :=
  if Nat.eqb (l_width (t_line s)) 0 then s
  else TB (t_blk s) line0 (t_pending s) (t_first s) (t_max s) (t_out s ++ line_text (t_line s)).

(* textblk.c:109-123 clear_eols *)
Definition rule : txt := lit "------------------------------------------------------------".
Definition clear_eols (s : tb) : tb :=
  if N.ltb 0 (t_pending s) then
    let s := flush_line s in
    TB (t_blk s) (t_line s) 0 (t_first s) (t_max s)
      (t_out s ++ if N.ltb 1 (t_pending s) then eol ++ rule ++ eol else eol)
  else s.

(* textblk.c:124-138 append_to_width *)
Definition append_to_width (src dbuf : txt) (wid : nat) : outcome txt :=
  let toadd := (Z.of_nat wid - Z.of_nat (List.length src))%Z in
  if (toadd <? 0)%Z || (Z.of_nat buffer_size <=? toadd)%Z then UB UB_bounds
  else do d <- cat dbuf src; cat d (repeat " "%char (Z.to_nat toadd)).

(* textblk.c:165-176: the tag lines from number i on; [ts] and [ls] are tag_text and
   tag_line from there, [u] and [v] are tags_used and line_tags_used less i *)
Fixpoint tag_lines (u v cur wid : nat) (ts ls : list txt) : outcome (list txt) :=
  match ls with
  | [] => match u, v with 0, 0 => Ok [] | _, _ => UB UB_bounds end
  | l :: ls =>
      do l <- (match u with
               | 0 => match v with 0 => Ok l | _ => append_to_width [] l wid end
               | S _ =>
                   do l <- (match v with 0 => append_to_width [] l cur | _ => Ok l end);
                   append_to_width (hd [] ts) l wid
               end);
      do ls <- tag_lines (pred u) (pred v) cur wid (tl ts) ls;
      Ok (l :: ls)
  end.

(* textblk.c:139-191 flush_block *)
Definition flush_block (s : tb) : outcome tb :=
  let b := t_blk s in
  if empty (b_loj b) && empty (b_eng b) && Nat.eqb (b_used b) 0 then Ok s
  else if Nat.ltb max_tags (b_used b) then UB UB_bounds
  else
    let max_len := fold_left Nat.max (map (@List.length _) (firstn (b_used b) (b_tags b)))
                     (Nat.max (List.length (b_loj b)) (List.length (b_eng b))) in
    let s := if (Z.of_nat (max_len + l_width (t_line s)) >? t_max s)%Z then flush_line s else s in
    let l := t_line s in
    do loj <- append_to_width (b_loj b) (l_loj l) max_len;
    do eng <- append_to_width (b_eng b) (l_eng l) max_len;
    do tags <- tag_lines (b_used b) (l_used l) (l_width l) max_len (b_tags b) (l_tags l);
    Ok (TB blk0 (Line loj eng tags (Nat.max (b_used b) (l_used l)) (l_width l + max_len))
          (t_pending s) (t_first s) (t_max s) (t_out s)).

(* functions.h BracketType *)
Inductive bracket : Set := BR_NONE | BR_ROUND | BR_SQUARE | BR_BRACE | BR_ANGLE | BR_CEIL | BR_FLOOR | BR_TRIANGLE.
(* textblk.c:220-249: what is put on the three lines *)
Definition open_signs (t : bracket) : option (string * string * string) :=
  match t with
  | BR_NONE => None
  | BR_ROUND => Some ("(", "(", "(") | BR_SQUARE => Some ("[", "[", "[") | BR_BRACE => Some ("{", "{", "{")
  | BR_ANGLE => Some ("<", "<", "<") | BR_CEIL => Some (" /", "|", "|") | BR_FLOOR => Some ("|", "|", " \")
  | BR_TRIANGLE => Some ("<<", "<<", "<<")
  end%string.
(* textblk.c:282-311 *)
Definition close_signs (t : bracket) : option (string * string * string) :=
  match t with
  | BR_NONE => None
  | BR_ROUND => Some (")", ")", ")") | BR_SQUARE => Some ("]", "]", "]") | BR_BRACE => Some ("}", "}", "}")
  | BR_ANGLE => Some (">", ">", ">") | BR_CEIL => Some ("\", " |", " |") | BR_FLOOR => Some (" |", " |", "/")
  | BR_TRIANGLE => Some (">>", ">>", ">>")
  end%string.
Definition spaced (s : txt) : txt := s ++ [" "%char].
Definition with_blk (b : blk) (s : tb) : tb := TB b (t_line s) (t_pending s) (t_first s) (t_max s) (t_out s).
(* textblk.c:251-263, 313-325; the other tag texts stay *)
Definition bracket_blk (x : string * string * string) (sub : txt) (b : blk) : outcome blk :=
  let '(a1, a2, a3) := x in
  if Nat.leb buffer_size (List.length (spaced sub)) then UB UB_bounds
  else Ok (Blk (spaced (lit a1)) (spaced (lit a2)) (spaced (lit a3) :: spaced sub :: skipn 2 (b_tags b)) 2).

(* tag_text[i] = t *)
Fixpoint set_nth (i : nat) (t : txt) (l : list txt) : list txt :=
  match l, i with
  | [], _ => []
  | _ :: l, 0 => t :: l
  | x :: l, S i => x :: set_nth i t l
  end.
(* strcat(tag_text[tags_used], t) *)
Definition add_tag (t : txt) (s : tb) : outcome tb :=
  let b := t_blk s in
  if Nat.leb max_tags (b_used b) then UB UB_bounds
  else do x <- cat (nth (b_used b) (b_tags b) []) t;
       Ok (with_blk (Blk (b_loj b) (b_eng b) (set_nth (b_used b) x (b_tags b)) (b_used b)) s).

(* the calls of the driver (textblk.c:407-422) *)
Inductive op : Type :=
| Open (t : bracket) (sub : txt) | Close (t : bracket) (sub : txt) | Eols (n : N)
| Loj (t : txt) | Trans (t : txt)
| StartTags | EndTags | StartTag | TagText (brivla place trans : txt) (brac : bool) | PartTag (t : txt).

Definition with_first (f : bool) (s : tb) : tb := TB (t_blk s) (t_line s) (t_pending s) f (t_max s) (t_out s).
(* tags_used++ *)
Definition next_tag (s : tb) : tb := let b := t_blk s in with_blk (Blk (b_loj b) (b_eng b) (b_tags b) (S (b_used b))) s.
(* textblk.c:343-352 write_special, for a text that begins with $ *)
Definition special (t : txt) : txt :=
  if list_eq_dec ascii_dec t (lit "$LEFTARROW") then lit "<-"
  else if list_eq_dec ascii_dec t (lit "$OPENQUOTE") then lit """"
  else if list_eq_dec ascii_dec t (lit "$CLOSEQUOTE") then lit """" else [].
Definition dollar (t : txt) : bool := match t with c :: _ => Ascii.eqb c "$" | [] => false end.

Definition step (o : op) (s : tb) : outcome tb :=
  let b := t_blk s in
  match o with
  | Open t sub =>                                       (* textblk.c:205-267 *)
      match open_signs t with
      | None => Ok s
      | Some x =>
          do s <- (if negb (empty (b_loj b)) || negb (empty (b_eng b)) || Nat.ltb 0 (b_used b) then flush_block s else Ok s);
          let s := clear_eols s in
          do b <- bracket_blk x sub (t_blk s); Ok (with_blk b s)
      end
  | Close t sub =>                                      (* textblk.c:269-329 *)
      match close_signs t with
      | None => Ok s
      | Some x =>
          do s <- (if negb (empty (b_loj b)) || negb (empty (b_eng b)) then flush_block s else Ok s);
          do b <- bracket_blk x sub (t_blk s); Ok (with_blk b s)
      end
  | Eols n => Ok (TB b (t_line s) (t_pending s + n) (t_first s) (t_max s) (t_out s))   (* 193-196 *)
  | Loj t =>                                            (* textblk.c:330-342 *)
      do s <- (if negb (empty (b_eng b)) then flush_block s else Ok s);
      let s := clear_eols s in
      let b := t_blk s in
      do x <- cat (b_loj b) t; do x <- cat x (lit " ");
      Ok (with_blk (Blk x (b_eng b) (b_tags b) (b_used b)) s)
  | Trans t =>                                          (* textblk.c:353-361 *)
      if dollar t then
        do x <- cat (b_eng b) (special t); Ok (with_blk (Blk (b_loj b) x (b_tags b) (b_used b)) s)
      else
        do x <- cat (b_eng b) t; do x <- cat x (lit " ");
        Ok (with_blk (Blk (b_loj b) x (b_tags b) (b_used b)) s)
  | StartTags =>                                        (* textblk.c:367-374 *)
      do s <- (if negb (empty (b_loj b)) || negb (empty (b_eng b)) then flush_block s else Ok s);
      Ok (with_first true (clear_eols s))
  | EndTags => Ok (next_tag s)                          (* textblk.c:375-378 *)
  | StartTag => Ok (with_first false (if t_first s then s else next_tag s))    (* textblk.c:379-385 *)
  | TagText brivla place trans brac =>                  (* textblk.c:387-399 *)
      let t1 := spaced (brivla ++ place) in
      let t2 := if brac then lit "(" ++ trans ++ lit ") " else spaced trans in
      if N.leb 65536 (N.of_nat (List.length t1)) || N.leb 65536 (N.of_nat (List.length t2)) then UB UB_bounds
      else do s <- add_tag t1 s; add_tag t2 s
  | PartTag t => add_tag t s                            (* textblk.c:401-404 *)
  end.
Fixpoint steps (os : list op) (s : tb) : outcome tb :=
  match os with [] => Ok s | o :: os => do s <- step o s; steps os s end.
(* textblk.c:64-80, 198-204: a whole run; what is printed *)
Definition run_driver (width : Z) (os : list op) : outcome txt :=
  do s <- steps os (tb0 width);
  do s <- flush_block s;
  Ok (t_out (flush_line s)).

(* ---------- cm_output.c, format OF_TEXTBLK ---------- *)

(* cm_output.c:28-29 and what has been printed *)
Record cm : Type := CM { cm_0 : txt; cm_1 : txt; cm_2 : txt; cm_used : nat; cm_out : txt }.
(* cm_output.c:110-113 *)
Definition cm0 : cm := CM [] [] [] 0 [].
(* cm_output.c:33-44 block_newline *)
Definition block_newline (s : cm) : cm :=
  CM [] [] [] 0
    (cm_out s ++ if Nat.ltb 0 (cm_used s) then cm_0 s ++ eol ++ cm_1 s ++ eol ++ cm_2 s ++ eol ++ eol else []).
(* cm_output.c:48-62 append_content *)
Definition append_content (buf x : txt) (mlen : nat) : outcome txt :=
  do b <- cat buf x; cat b (repeat " "%char (mlen - List.length x)).
(* cm_output.c:66-87 do_block *)
Definition do_block (width : Z) (a1 a2 a3 : txt) (s : cm) : outcome cm :=
  let ml := Nat.max (Nat.max (List.length a1) (List.length a2)) (List.length a3) in
  let s := if (Z.of_nat (ml + cm_used s + 1) >? width)%Z then block_newline s else s in
  do x0 <- append_content (cm_0 s) a1 (ml + 1);
  do x1 <- append_content (cm_1 s) a2 (ml + 1);
  do x2 <- append_content (cm_2 s) a3 (ml + 1);
  Ok (CM x0 x1 x2 (cm_used s + (ml + 1)) (cm_out s)).
(* cm_output.c:168-170 (the arguments are lojban, selmao, trans), 190-193, 209-213 *)
Inductive cm_op : Type := CWord (lojban selmao trans : txt) | CNewline | CParen (t : txt).
Definition cm_step (width : Z) (o : cm_op) (s : cm) : outcome cm :=
  match o with
  | CWord a b c => do_block width a b c s
  | CNewline => let s := block_newline s in Ok (CM (cm_0 s) (cm_1 s) (cm_2 s) (cm_used s) (cm_out s ++ eol))
  | CParen t =>
      do s <- do_block width (lit "(") (lit "(") (lit "(") s;
      do s <- do_block width t [] [] s;
      do_block width (lit ")") (lit ")") (lit ")") s
  end.
Fixpoint cm_steps (width : Z) (os : list cm_op) (s : cm) : outcome cm :=
  match os with [] => Ok s | o :: os => do s <- cm_step width o s; cm_steps width os s end.
(* cm_output.c:92-148 start_output ... end_output *)
Definition cm_run (width : Z) (os : list cm_op) : outcome txt :=
  do s <- cm_steps width os cm0; Ok (cm_out (block_newline s)).
