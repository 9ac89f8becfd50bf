(* The C text of the tables that dfasyn writes (dfasyn/n2d.c:1184-1434).  A row of
   the transition table is a list of numbers of states, -1 for none, with the
   number of its default state, -1 for none. *)
From Coq Require Import Ascii String List Bool Arith ZArith.
From Verif Require TransModel.
Import ListNotations.
Import TransModel(zdec).
Open Scope string_scope.
Open Scope list_scope.

(* dfasyn/n2d.h:100-139 DFANode, the fields map and defstate *)
Record trow : Set := TRow { r_map : list Z; r_def : Z }.

(* the letter '\n' *)
Definition nl : string := String (ascii_of_nat 10) "".
(* printf %4d, %3d, %5d: filled up with spaces on the left *)
Fixpoint spaces (n : nat) : string := match n with O => "" | S n => String " " (spaces n) end.
Definition pad (w : nat) (z : Z) : string := (spaces (w - String.length (zdec z)) ++ zdec z)%string.

(* dfasyn/n2d.c:1264-1272, 1358-1365, 1382-1389, 1403-1410, 1422-1429: one number,
   [n] numbers have been written before *)
Definition item (w n : nat) (z : Z) : string :=
  ((if (0 <? n)%nat then "," else "") ++ (if (n mod 8 =? 0)%nat then nl ++ "  " else " ") ++ pad w z)%string.
(* the loops over one array (dfasyn/n2d.c:1402-1411, 1421-1430) *)
Fixpoint items (w n : nat) (l : list Z) : string :=
  match l with [] => "" | z :: l => (item w n z ++ items w (S n) l)%string end.

(* "%s_..." and the form without -p *)
Definition named (p : option string) (s : string) : string :=
  match p with Some p => (p ++ "_" ++ s)%string | None => s end.
(* the first and the last line of a table *)
Definition opening (ty : string) (p : option string) (s : string) : string :=
  ("static " ++ ty ++ " " ++ named p s ++ "[] = {")%string.
Definition closing : string := (nl ++ "};" ++ nl ++ nl)%string.

(* map[token]; no array is indexed outside, all rows have Nt numbers *)
Definition at_token (m : list Z) (t : nat) : Z := nth t m (-1)%Z.
(* dfasyn/n2d.c:1282-1290 check_include_char *)
Definition check_include_char (rows : list trow) (r : trow) (token : nat) : bool :=
  if (0 <=? r_def r)%Z
  then negb (at_token (r_map r) token =? at_token (r_map (nth (Z.to_nat (r_def r)) rows (TRow [] (-1)))) token)%Z
  else (0 <=? at_token (r_map r) token)%Z.

(* dfasyn/n2d.c:1263-1274: the inner loop of the uncompressed table *)
Fixpoint full_row (n : nat) (r : trow) (js : list nat) : string * nat :=
  match js with
  | [] => ("", n)
  | j :: js => let (s, n') := full_row (S n) r js in ((item 4 n (at_token (r_map r) j) ++ s)%string, n')
  end.
(* dfasyn/n2d.c:1262-1275 *)
Fixpoint full_rows (n nt : nat) (rows : list trow) : string :=
  match rows with
  | [] => ""
  | r :: rows => let (s, n') := full_row n r (seq 0 nt) in (s ++ full_rows n' nt rows)%string
  end.

(* dfasyn/n2d.c:1356-1367, 1379-1391: the inner loops of the compressed tables;
   [f j] is the number written *)
Fixpoint kept_row (w n : nat) (rows : list trow) (r : trow) (f : nat -> Z) (js : list nat) : string * nat :=
  match js with
  | [] => ("", n)
  | j :: js =>
      if check_include_char rows r j then
        let (s, n') := kept_row w (S n) rows r f js in ((item w n (f j) ++ s)%string, n')
      else kept_row w n rows r f js
  end.
(* dfasyn/n2d.c:1355-1368: token[] *)
Fixpoint token_rows (n nt : nat) (all rows : list trow) : string :=
  match rows with
  | [] => ""
  | r :: rows => let (s, n') := kept_row 3 n all r Z.of_nat (seq 0 nt) in (s ++ token_rows n' nt all rows)%string
  end.
(* dfasyn/n2d.c:1377-1394: nextstate[] and basetab *)
Fixpoint next_rows (n nt : nat) (all rows : list trow) : string * list Z :=
  match rows with
  | [] => ("", [Z.of_nat n])
  | r :: rows =>
      let (s, n') := kept_row 5 n all r (at_token (r_map r)) (seq 0 nt) in
      let (t, b) := next_rows n' nt all rows in
      ((s ++ t)%string, Z.of_nat n :: b)
  end.

(* dfasyn/n2d.c:1229-1245 write_next_state_function_uncompressed *)
Definition next_state_uncompressed (p : option string) (nt : nat) : string :=
  let k := zdec (Z.of_nat nt) in
  match p with
  | Some p =>
      "int " ++ p ++ "_next_state(int current_state, int next_token) {" ++ nl ++
      "  if (next_token < 0 || next_token >= " ++ k ++ ") return -1;" ++ nl ++
      "  return " ++ p ++ "_trans[" ++ k ++ "*current_state + next_token];" ++ nl ++
      "}" ++ nl
  | None =>
      "int next_state(int current_state, int token) {" ++ nl ++
      "  if (next_token < 0 || next_token >= " ++ k ++ ") return -1;" ++ nl ++
      "  return trans[" ++ k ++ "*current_state + next_token];" ++ nl ++
      "}" ++ nl
  end%string.

(* dfasyn/n2d.c:1292-1336 write_next_state_function_compressed *)
Definition next_state_compressed (p : option string) : string :=
  match p with
  | Some p =>
      "int " ++ p ++ "_next_state(int current_state, int next_token) {" ++ nl ++
      "int h, l, m, xm;" ++ nl ++
      "while (current_state >= 0) {" ++ nl ++
      "  l = " ++ p ++ "_base[current_state], h = " ++ p ++ "_base[current_state+1];" ++ nl ++
      "  while (h > l) {" ++ nl ++
      "    m = (h + l) >> 1; xm = " ++ p ++ "_token[m];" ++ nl ++
      "    if (xm == next_token) goto done;" ++ nl ++
      "    if (m == l) break;" ++ nl ++
      "    if (xm > next_token) h = m;" ++ nl ++
      "    else                 l = m;" ++ nl ++
      "  }" ++ nl ++
      "  current_state = " ++ p ++ "_defstate[current_state];" ++ nl ++
      "}" ++ nl ++
      "return -1;" ++ nl ++
      "done:" ++ nl ++
      "return " ++ p ++ "_nextstate[m];" ++ nl ++
      "}" ++ nl
  | None =>
      "int next_state(int current_state, int token) {" ++ nl ++
      "int h, l, m, xm;" ++ nl ++
      "while (current_state >= 0) {" ++ nl ++
      "  l = base[current_state], h = base[current_state+1];" ++ nl ++
      "  while (h > l) {" ++ nl ++
      "    m = (h + l) >> 1; xm = token[m];" ++ nl ++
      "    if (xm == next_token) goto done;" ++ nl ++
      "    if (m == l) break;" ++ nl ++
      "    if (xm > next_token) h = m;" ++ nl ++
      "    else                 l = m;" ++ nl ++
      "  }" ++ nl ++
      "  current_state = defstate[current_state];" ++ nl ++
      "}" ++ nl ++
      "return -1;" ++ nl ++
      "done:" ++ nl ++
      "return nextstate[m];" ++ nl ++
      "}" ++ nl
  end%string.

(* dfasyn/n2d.c:1246-1281 print_uncompressed_tables *)
Definition print_uncompressed_tables (p : option string) (nt : nat) (rows : list trow) : string :=
  (opening "short" p "trans" ++ full_rows 0 nt rows ++ closing ++ next_state_uncompressed p nt)%string.

(* dfasyn/n2d.c:1338-1434 print_compressed_tables *)
Definition print_compressed_tables (p : option string) (nt : nat) (rows : list trow) : string :=
  let (next, basetab) := next_rows 0 nt rows rows in
  (opening "unsigned char" p "token" ++ token_rows 0 nt rows rows ++ closing ++
   opening "short" p "nextstate" ++ next ++ closing ++
   opening "unsigned short" p "base" ++ items 5 0 basetab ++ closing ++
   opening "short" p "defstate" ++ items 5 0 (map r_def rows) ++ closing ++
   next_state_compressed p)%string.

(* dfasyn/n2d.c:1198-1202, 1219-1224: the lines of exitval[] and attribute[] *)
Fixpoint result_lines (i n : nat) (l : list string) : string :=
  match l with
  | [] => ""
  | s :: l =>
      (s ++ (if (i <? n - 1)%nat then "," else " ") ++ " /* State " ++ zdec (Z.of_nat i) ++ " */" ++ nl ++ result_lines (S i) n l)%string
  end.
(* dfasyn/n2d.c:1184-1228 print_exitval_table, print_attribute_table; [name] is
   exitval or attribute, [ty] the type of the results *)
Definition print_result_table (ty : string) (p : option string) (name : string) (l : list string) : string :=
  (ty ++ " " ++ named p name ++ "[] = {" ++ nl ++ result_lines 0 (List.length l) l ++ "};" ++ nl ++ nl)%string.
