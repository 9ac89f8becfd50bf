(* lex1.c: from the bytes of the text to the list of tokens. *)
From Coq Require Import String Ascii List NArith ZArith Bool Arith.
From Verif Require Import Base TokData CmavoData TokModel MorfModel.
Import ListNotations.
Open Scope list_scope.

(* ---------- cmavo ---------- *)

(* lex1.c:37-50 tab1, tab2 *)
Definition tab1 : list Z :=
  [-1; 1; 2; 3; -1; 4; 5; -1; -1; 6; 7; 8; 9; 10; -1; 11; -1; 12; 13; 14; -1; 15; -1; 16; -1; 17]%Z.
Definition tab2 : list Z :=
  [1; -1; -1; -1; 2; -1; -1; -1; 3; -1; -1; -1; -1; -1; 4; -1; -1; -1; -1; -1; 5; -1; -1; -1; 6; -1]%Z.
(* lex1.c:71,78,90: tab[*p - 'a'] *)
Definition tab (l : list Z) (c : ascii) : outcome Z :=
  let n := N_of_ascii c in
  if N.leb 97 n then match nth_error l (N.to_nat (n - 97)) with Some v => Ok v | None => UB UB_bounds end
  else UB UB_bounds.
(* *p, with the NUL at the end of the string *)
Definition cur (p : list ascii) : ascii := match p with [] => Ascii.zero | c :: _ => c end.
Definition quote (c : ascii) : bool := Ascii.eqb c "'".

(* lex1.c:63-93 hash_cmavo.  The argument is the text up to the NUL. *)
Definition hash_cmavo (buf : list ascii) : outcome Z :=
  if quote (cur buf) then Ok (-1)%Z else
  do v <- tab tab1 (cur buf);
  let '(val, p) := if Z.ltb 0 v then ((v * 98)%Z, tl buf) else (0%Z, buf) in
  if quote (cur p) then Ok (-1)%Z else
  do v <- tab tab2 (cur p);
  let val := (val + v * 14)%Z in
  let p := tl p in
  match p with
  | [] => Ok val
  | _ =>
      let '(val, p) := if quote (cur p) || Ascii.eqb (cur p) "," then ((val + 7)%Z, tl p) else (val, p) in
      if quote (cur p) then Ok (-1)%Z else
      do v <- tab tab2 (cur p);
      Ok (val + v)%Z
  end.

(* lex1.c:113 *)
Definition cmavo_chars : list ascii := list_ascii_of_string "abcdefgijklmnoprstuvxyz'".
Definition cmavo_char (c : ascii) : bool := existsb (Ascii.eqb c) cmavo_chars.

(* lex1.c:129, 134: cmavo_table[hash].selmao if the cell is in the table and its word
   equals the text.  Unused cells hold an empty word; the text is not empty here
   (hash_cmavo reads outside its tables for an empty text). *)
Definition cmavo_found (h : Z) (buf : list ascii) : option (N * tok) :=
  if (Z.leb 0 h && Z.leb h 1750)%bool then
    match cmavo_cell (Z.to_N h) with
    | Some (w, s) => if String.eqb (string_of_list_ascii buf) w then Some (Z.to_N h, s) else None
    | None => None
    end
  else None.

(* ---------- the lexer's state ---------- *)

(* lex1.c:21-27 the static variables, had_bad_tokens, and the token list toks of
   lex2.c with the newest token first; the number with each token is its eols
   counter, [lx_eols0] is the counter of the list head (lex2.c:60-76).  Messages are
   not modelled. *)
Record lexer : Type := Lexer {
  lx_toks : list (node * N); lx_eols0 : N; lx_bad : bool;
  zoi_form : string; zoi_next : bool; zoi_delim : list ascii; zoi_line : N; zoi_col : N;
  zoi_data : option string }.

(* lex1.c:21-25, lex2.c:46-50, main.c: the initial values *)
Definition lexer0 : lexer := Lexer [] 0 false "" false [] 0 0 None.

(* lex2.c:59-66 add_token, on a node fresh from new_node *)
Definition add_token (d : ndata) (l c : N) (st : lexer) : lexer :=
  Lexer ((Node d l c None false None [], 0%N) :: lx_toks st) (lx_eols0 st) (lx_bad st)
    (zoi_form st) (zoi_next st) (zoi_delim st) (zoi_line st) (zoi_col st) (zoi_data st).
(* lex2.c:72-76 mark_eol *)
Definition mark_eol (st : lexer) : lexer :=
  match lx_toks st with
  | [] => Lexer [] (lx_eols0 st + 1) (lx_bad st)
            (zoi_form st) (zoi_next st) (zoi_delim st) (zoi_line st) (zoi_col st) (zoi_data st)
  | (n, e) :: r => Lexer ((n, (e + 1)%N) :: r) (lx_eols0 st) (lx_bad st)
            (zoi_form st) (zoi_next st) (zoi_delim st) (zoi_line st) (zoi_col st) (zoi_data st)
  end.
(* had_bad_tokens = 1 *)
Definition set_bad (st : lexer) : lexer :=
  Lexer (lx_toks st) (lx_eols0 st) true
    (zoi_form st) (zoi_next st) (zoi_delim st) (zoi_line st) (zoi_col st) (zoi_data st).
(* lex1.c:281-284, 289-292 *)
Definition open_zoi (form : string) (l c : N) (st : lexer) : lexer :=
  Lexer (lx_toks st) (lx_eols0 st) (lx_bad st) form true (zoi_delim st) l c (zoi_data st).
(* lex1.c:274-276; the delimiter has room for 63 characters *)
Definition delim_zoi (buf : list ascii) (st : lexer) : outcome lexer :=
  if Nat.leb 64 (List.length buf) then UB UB_bounds
  else Ok (Lexer (lx_toks st) (lx_eols0 st) (lx_bad st) (zoi_form st) false buf (zoi_line st) (zoi_col st) (Some EmptyString)).
(* lex1.c:254-263 *)
Definition close_zoi (text : string) (st : lexer) : lexer :=
  let st := add_token (N_ZOI (zoi_form st) (string_of_list_ascii (zoi_delim st)) text) (zoi_line st) (zoi_col st) st in
  Lexer (lx_toks st) (lx_eols0 st) (lx_bad st) (zoi_form st) (zoi_next st) [] (zoi_line st) (zoi_col st) None.
(* lex1.c:265-268 *)
Definition extend_zoi (data : string) (buf : list ascii) (st : lexer) : lexer :=
  let data := match data with EmptyString => EmptyString | _ => append data " " end in
  Lexer (lx_toks st) (lx_eols0 st) (lx_bad st) (zoi_form st) (zoi_next st) (zoi_delim st) (zoi_line st) (zoi_col st)
    (Some (append data (string_of_list_ascii buf))).

(* lex1.c:102-146 process_cmavo *)
Definition process_cmavo (buf : list ascii) (l c : N) (st : lexer) : outcome lexer :=
  if negb (forallb cmavo_char buf) then Ok (set_bad st)
  else
    do h <- hash_cmavo buf;
    match cmavo_found h buf with
    | Some (code, s) => Ok (add_token (N_CMAVO s code false) l c st)
    | None => Ok (add_token (N_GARBAGE (string_of_list_ascii buf)) l c (set_bad st))
    end.

(* lex1.c:213-230 add_preceding_cmavo and 344-353: the pieces in order, with the
   column moved on *)
Fixpoint process_cmavos (ps : list (list ascii)) (l c : N) (st : lexer) : outcome (lexer * N) :=
  match ps with
  | [] => Ok (st, c)
  | p :: ps =>
      do st <- process_cmavo p l c st;
      process_cmavos ps l (c + N.of_nat (List.length p))%N st
  end.

(* lex1.c:222-226, 316, 346-350: the texts between the recorded starts; the last one
   runs to the end of the word *)
Fixpoint between (w : list ascii) (starts : list nat) : list (list ascii) :=
  match starts with
  | [] => []
  | s :: r =>
      match r with
      | [] => [skipn s w]
      | s' :: _ => firstn (s' - s)%nat (skipn s w) :: between w r
      end
  end.

(* lex1.c:158-174 add_brivla_token after 213-230; *pwe is not set if nothing was
   recorded *)
Definition process_brivla (w : list ascii) (starts : list nat) (ty : brivla_type) (l c : N) (st : lexer) : outcome lexer :=
  match rev (between w starts) with
  | [] => UB UB_uninit
  | lastp :: front =>
      do r <- process_cmavos (rev front) l c st;
      let '(st, c) := r in
      Ok (add_token (N_BRIVLA (string_of_list_ascii lastp) ty) l c st)
  end.

(* lex1.c:181-207 process_cmene and 241-361 process_word; [cult] is
   allow_cultural_rafsi.  The fuel is for the calls between the two. *)
Fixpoint process_word (fuel : nat) (cult : bool) (buf : list ascii) (l c : N) (st : lexer) : outcome lexer :=
  match fuel with
  | O => NoFuel
  | S fuel =>
      match zoi_data st with
      | Some d =>
          if list_eq_dec ascii_dec buf (zoi_delim st) then Ok (close_zoi d st) else Ok (extend_zoi d buf st)
      | None =>
          if zoi_next st then delim_zoi buf st
          else if list_eq_dec ascii_dec buf (list_ascii_of_string "zoi") then Ok (open_zoi "zoi" l c st)
          else if list_eq_dec ascii_dec buf (list_ascii_of_string "la'o") then Ok (open_zoi "la'o" l c st)
          else
            do r <- morf_scan cult buf;
            match sc_type r with
            | MT_BOGUS | MT_BAD_UPPERCASE => Ok (set_bad st)
            | MT_GISMU => process_brivla buf (sc_starts r) BVT_GISMU l c st
            | MT_LUJVO => process_brivla buf (sc_starts r) BVT_LUJVO l c st
            | MT_FUIVLA3 | MT_FUIVLA3_CVC | MT_FUIVLA3X | MT_FUIVLA3X_CVC =>
                process_brivla buf (sc_starts r) BVT_FUIVLA3 l c st
            | MT_FUIVLA4 => process_brivla buf (sc_starts r) BVT_FUIVLA4 l c st
            | MT_CMAVOS =>
                match sc_starts r with
                | [] => UB UB_uninit
                | _ => do r <- process_cmavos (between buf (sc_starts r)) l c st; Ok (fst r)
                end
            | MT_CMENE =>
                match sc_cmene r with
                | None => UB UB_uninit
                | Some i =>
                    if is_bad i then
                      match ladoi i, tail i with
                      | Some a, Some b =>
                          let prefix := firstn a buf in
                          let labuf := firstn (b - a)%nat (skipn a buf) in
                          if Nat.leb 8 (List.length labuf) then UB UB_bounds
                          else
                            do st <- (match prefix with [] => Ok st | _ => process_word fuel cult prefix l c st end);
                            do st <- process_word fuel cult labuf l (c + N.of_nat a)%N st;
                            process_word fuel cult (skipn b buf) l (c + N.of_nat b)%N st
                      | _, _ => UB UB_uninit
                      end
                    else Ok (add_token (N_CMENE (string_of_list_ascii buf)) l c st)
                end
            end
      end
  end.

(* ---------- parse_file ---------- *)

(* lex1.c:382-390 the variables of parse_file; [buffer] holds the characters from
   buffer to p, newest first *)
Record reader : Type := Reader {
  r_lex : lexer; buffer : list ascii; line_no : N; column : N; start_line : N; start_col : N;
  new_tok : bool; depth : N }.
(* lex1.c:387-399 *)
Definition reader0 (st : lexer) : reader :=
  Reader (Lexer (lx_toks st) (lx_eols0 st) (lx_bad st) (zoi_form st) false [] (zoi_line st) (zoi_col st) (zoi_data st))
    [] 1 0 1 0 true 0.

(* the string in a buffer ends at the first NUL *)
Fixpoint cstring (l : list ascii) : list ascii :=
  match l with [] => [] | c :: l => if Ascii.eqb c Ascii.zero then [] else c :: cstring l end.

(* process_word is called with enough fuel for the word *)
Definition word (cult : bool) (buf : list ascii) (l c : N) (st : lexer) : outcome lexer :=
  process_word (S (List.length buf)) cult buf l c st.

(* lex1.c:363-369 CLOSE_TOKEN; the buffer has room for 65536 bytes *)
Definition close_token (cult : bool) (r : reader) : outcome reader :=
  if N.leb 65536 (N.of_nat (List.length (buffer r))) then UB UB_bounds else
  match buffer r with
  | [] => Ok r
  | _ =>
      do st <- word cult (cstring (rev (buffer r))) (start_line r) (start_col r) (r_lex r);
      Ok (Reader st [] (line_no r) (column r) (start_line r) (start_col r) true (depth r))
  end.
(* lex1.c:371 SET_START *)
Definition set_start (r : reader) : reader :=
  if new_tok r then Reader (r_lex r) (buffer r) (line_no r) (column r) (line_no r) (column r) false (depth r) else r.
(* r_lex = st *)
Definition with_lex (st : lexer) (r : reader) : reader :=
  Reader st (buffer r) (line_no r) (column r) (start_line r) (start_col r) (new_tok r) (depth r).
(* column++ *)
Definition next_col (r : reader) : reader :=
  Reader (r_lex r) (buffer r) (line_no r) (column r + 1) (start_line r) (start_col r) (new_tok r) (depth r).
(* line++; column = 0 *)
Definition next_line (r : reader) : reader :=
  Reader (r_lex r) (buffer r) (line_no r + 1) 0 (start_line r) (start_col r) (new_tok r) (depth r).
(* lex1.c:405-408, 443; [t] tells whether new_tok is set *)
Definition with_depth (d : N) (t : bool) (r : reader) : reader :=
  Reader (r_lex r) (buffer r) (line_no r) (column r) (start_line r) (start_col r) (t || new_tok r) d.
(* lex1.c:448 *)
Definition push (c : ascii) (r : reader) : outcome reader :=
  if N.leb 65536 (N.of_nat (List.length (buffer r))) then UB UB_bounds
  else Ok (Reader (r_lex r) (c :: buffer r) (line_no r) (column r) (start_line r) (start_col r) (new_tok r) (depth r)).

(* lex1.c:417-418 numbers *)
Definition numbers : list string := ["no"; "pa"; "re"; "ci"; "vo"; "mu"; "xa"; "ze"; "bi"; "so"]%string.
Definition newline : ascii := "010".
Definition tabchar : ascii := "009".
Definition digit_value (c : ascii) : option nat :=
  let n := nat_of_ascii c in if (Nat.leb 48 n && Nat.leb n 57)%nat then Some (n - 48)%nat else None.
(* lex1.c:430-435 *)
Definition separator (c : ascii) : bool := existsb (Ascii.eqb c) [" "; tabchar; newline; "."; "("; ">"]%char.

(* lex1.c:419-422, 424-427 *)
Definition abbreviation (cult : bool) (w : string) (r : reader) : outcome reader :=
  do r <- close_token cult r;
  let r := set_start r in
  do st <- word cult (list_ascii_of_string w) (start_line r) (start_col r) (r_lex r);
  Ok (with_lex st r).

(* lex1.c:400-453: one turn of the loop; [None] is EOF; [inr] is the state at done *)
Definition turn (cult : bool) (c : option ascii) (r : reader) : outcome (reader + reader) :=
  let r := next_col r in
  if N.ltb 0 (depth r) then
    match c with
    | Some c =>
        if Ascii.eqb c ")" then Ok (inl (with_depth (depth r - 1) true r))
        else if Ascii.eqb c "(" then Ok (inl (with_depth (depth r + 1) false r))
        else if Ascii.eqb c newline then Ok (inl (next_line r))
        else Ok (inl r)
    | None => Ok (inl r)
    end
  else
    match c with
    | None => do r <- close_token cult r; Ok (inr r)
    | Some c =>
        match digit_value c with
        | Some n => do r <- abbreviation cult (nth n numbers ""%string) r; Ok (inl r)
        | None =>
            if Ascii.eqb c ":" then do r <- abbreviation cult "pi'e" r; Ok (inl r)
            else if separator c then
              do r <- close_token cult r;
              let r := if Ascii.eqb c newline then next_line (with_lex (mark_eol (r_lex r)) r) else r in
              Ok (inl (if Ascii.eqb c "(" then with_depth 1 false r else r))
            else do r <- push c (set_start r); Ok (inl r)
        end
    end.

(* lex1.c:400-453: the loop; reading past the end gives EOF again and again *)
Fixpoint read_loop (fuel : nat) (cult : bool) (t : list ascii) (r : reader) : outcome reader :=
  match fuel with
  | O => NoFuel
  | S fuel =>
      do x <- turn cult (match t with [] => None | c :: _ => Some c end) r;
      match x with
      | inr r => Ok r
      | inl r => read_loop fuel cult (tl t) r
      end
  end.

(* lex1.c:379-464 parse_file *)
Definition parse_file (fuel : nat) (cult : bool) (t : list ascii) (st : lexer) : outcome lexer :=
  do r <- read_loop fuel cult t (reader0 st);
  Ok (match zoi_data (r_lex r) with Some _ => set_bad (r_lex r) | None => r_lex r end).
