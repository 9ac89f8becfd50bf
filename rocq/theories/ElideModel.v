(* elide.c: the buffer of terminators between the token stream and the parser, and the
   report on superfluous terminators (options -se and -sev). *)
From Coq Require Import String List NArith Bool Arith.
From Verif Require Import Base TokData TokModel StreamModel.
Import ListNotations.
Open Scope list_scope.

(* array access and store, with bounds *)
Definition get {A} (l : list A) (i : nat) : outcome A := match nth_error l i with Some x => Ok x | None => UB UB_bounds end.
Fixpoint set {A} (l : list A) (i : nat) (x : A) : outcome (list A) :=
  match l, i with
  | [], _ => UB UB_bounds
  | _ :: l, 0 => Ok (x :: l)
  | y :: l, S i => do l <- set l i x; Ok (y :: l)
  end.
(* an object that has been written *)
Definition init {A} (o : option A) : outcome A := match o with Some x => Ok x | None => UB UB_uninit end.

(* elide.c:32-44; None: not written yet *)
Record flags : Type := Flags { f_boiveho : option bool; f_subscript : option bool; f_marker : option bool }.
(* elide.c:51-73; buf: value and node of each token; conflicts: rows of banks of 32 bits *)
Record tokbuf : Type := Tokbuf {
  t_n : nat; t_max : nat; t_rp : nat; t_sp : nat;
  t_buf : list (option reply); t_conflicts : list (list (option N)); t_flags : list flags }.
(* elide.c:71-73 *)
Definition tokbuf0 : tokbuf := Tokbuf 0 0 0 0 [] [] [].

(* elide.c:82-90 set_conflict *)
Definition set_conflict (c : list (list (option N))) (k j : nat) : outcome (list (list (option N))) :=
  do row <- get c k;
  do b <- get row (j / 32);
  do b <- init b;
  do row <- set row (j / 32) (Some (N.setbit b (N.of_nat (j mod 32))));
  set c k row.
(* elide.c:96-104 is_set *)
Definition is_set (c : list (list (option N))) (k j : nat) : outcome bool :=
  do row <- get c k;
  do b <- get row (j / 32);
  do b <- init b;
  Ok (N.testbit b (N.of_nat (j mod 32))).
(* elide.c:130-132 *)
Fixpoint clear_row (row : list (option N)) (js : nat) : outcome (list (option N)) :=
  match js with
  | 0 => Ok row
  | S j => do row <- clear_row row j; set row j (Some 0%N)
  end.
(* elide.c:126-135 clear_conflicts *)
Fixpoint clear_conflicts (c : list (list (option N))) (n : nat) : outcome (list (list (option N))) :=
  match n with
  | 0 => Ok c
  | S k => do c <- clear_conflicts c k; do row <- get c k; do row <- clear_row row (k / 32 + 1); set c k row
  end.
(* elide.c:141-157 grow_buffer *)
Definition grow_buffer (t : tokbuf) : tokbuf :=
  let m := t_max t + 32 in
  Tokbuf (t_n t) m (t_rp t) (t_sp t) (t_buf t ++ repeat None 32) (t_conflicts t ++ repeat (repeat None (m / 32)) 32)
    (t_flags t ++ repeat (Flags None None None) 32).

(* the codes of the words of token_is_elidable, from cmavotab.h *)
Definition ordinary_terminators : list N :=
  [137; 266; 432; 530; 717; 723; 756; 765; 767; 838; 851; 866; 922; 1062; 1412; 1454; 1489]%N.
Definition free_terminators : list N := [362; 1314; 1431]%N.
Definition quantifier_terminators : list N := [157; 1509]%N.
(* elide.c:163-243 token_is_elidable: elidable, and boi or ve'o.  The code of a cmavo
   selects the cell of cmavo_table whose code field is the same number, for the words here *)
Definition token_is_elidable (x : rnode) : outcome (bool * bool) :=
  match x with
  | Null => Ok (false, false)
  | Stale => UB UB_uninit
  | Ptr x =>
      match dat x with
      | N_CMAVO _ code free =>
          let bare := match ui x with [] => true | _ => false end in
          if existsb (N.eqb code) ordinary_terminators then Ok (negb free && bare, false)
          else if existsb (N.eqb code) free_terminators then Ok (bare, false)
          else if existsb (N.eqb code) quantifier_terminators then Ok (bare, true)
          else Ok (false, false)
      | _ => Ok (false, false)
      end
  end.
(* elide.c:250-275 token_is_number_marker *)
Definition token_is_number_marker (x : rnode) : bool :=
  match x with
  | Ptr x => match dat x with
             | N_MARKER t => existsb (tok_eqb t) [T_PRIVATE_START_TENSE; T_PRIVATE_NUMBER_ROI; T_PRIVATE_NUMBER_MAI; T_PRIVATE_NUMBER_MOI]
             | _ => false
             end
  | _ => false
  end.

(* elide.c:72-77, the buffer, prev_token_was_pa_etc, cur_token_was_pa_etc, and the stream underneath *)
Record state : Type := State { st_buf : tokbuf; st_prev : bool; st_cur : bool; st_stream : stream }.
Definition state0 : state := State tokbuf0 false false stream0.

(* elide.c:665-680, the loop reading tokens up to one that is not elidable *)
Fixpoint fill (fuel : nat) (ts : list node) (t : tokbuf) (s : stream) : outcome (tokbuf * stream) :=
  match fuel with
  | 0 => NoFuel
  | S fuel =>
      let t := if Nat.eqb (t_n t) (t_max t) then grow_buffer t else t in
      let (s, r) := yylex1 ts s in
      do b <- set (t_buf t) (t_n t) (Some r);
      do e <- token_is_elidable (snd r);
      do f <- set (t_flags t) (t_n t) (Flags (Some (snd e)) (Some false) (Some (token_is_number_marker (snd r))));
      let t := Tokbuf (S (t_n t)) (t_max t) (t_rp t) (t_sp t) b (t_conflicts t) f in
      if fst e then fill fuel ts t s else Ok (t, s)
  end.
(* elide.c:697-705 *)
Definition pa_etc (v : option tok) : bool :=
  match v with Some v => existsb (tok_eqb v) [T_PA; T_BU; T_BY; T_LAU; T_TEI; T_FOI] | None => false end.
(* elide.c:625-715 yylex with show_elisions *)
Definition yylex (ts : list node) (st : state) : outcome (state * reply) :=
  let t := st_buf st in
  let prev := st_cur st in
  if Nat.ltb (t_rp t) (t_n t) then
    do r <- get (t_buf t) (t_rp t);
    do r <- init r;
    Ok (State (Tokbuf (t_n t) (t_max t) (S (t_rp t)) (t_rp t) (t_buf t) (t_conflicts t) (t_flags t)) prev (st_cur st) (st_stream st), r)
  else
    do p <- fill (List.length ts + 2) ts (Tokbuf 0 (t_max t) 0 (t_sp t) (t_buf t) (t_conflicts t) (t_flags t)) (st_stream st);
    let (t, s) := p in
    do c <- clear_conflicts (t_conflicts t) (t_n t);
    do r <- get (t_buf t) 0;
    do r <- init r;
    let cur := if Nat.eqb 1 (t_n t) then pa_etc (fst r) else st_cur st in
    Ok (State (Tokbuf (t_n t) (t_max t) 1 0 (t_buf t) c (t_flags t)) prev cur s, r).

(* what is reported: the hazards (option -sev), the words that may all be left out, the
   smaller patterns with their numbers *)
Inductive report : Type :=
| R_hazards (words : list string) (rows : list (list bool))
| R_omit (words : list string)
| R_banner (words : list string)
| R_pattern (number : nat) (words : list string).

(* cmavo_table[tok->data.cmavo.code].cmavo of a buffered token *)
Definition word_at (t : tokbuf) (i : nat) : outcome string :=
  do r <- get (t_buf t) i;
  do r <- init r;
  match snd r with
  | Null => UB UB_null
  | Stale => UB UB_uninit
  | Ptr x => match dat x with N_CMAVO _ code _ => Ok (cmavo_word code) | _ => UB UB_other end
  end.
Fixpoint omapM {A B} (f : A -> outcome B) (l : list A) : outcome (list B) :=
  match l with [] => Ok [] | x :: l => do y <- f x; do l <- omapM f l; Ok (y :: l) end.
(* elide.c:281-306 emit_elidable_sequence, the positions left out *)
Definition sequence (t : tokbuf) : outcome (list string) := omapM (word_at t) (seq 0 (t_n t - 1)).

(* elide.c:339-347: the largest j below k with a conflict *)
Fixpoint shift_at (c : list (list (option N))) (k j : nat) : outcome (option nat) :=
  match j with
  | 0 => Ok None
  | S j => do b <- is_set c k j; if b then Ok (Some j) else shift_at c k j
  end.
(* elide.c:334-385 show_minimal_elidables; [later] newest first, so in the order of
   printing; the reports printed so far, newest first, stand for patcount and the output *)
Fixpoint show_minimal (fuel : nat) (t : tokbuf) (k : nat) (later : list nat) (prev : nat) (acc : list report) : outcome (list report) :=
  match fuel with
  | 0 => NoFuel
  | S fuel =>
      do j <- shift_at (t_conflicts t) k k;
      match j with
      | None =>
          if Nat.ltb (List.length later) (t_n t - 1) then
            do acc <- match acc with [] => do w <- sequence t; Ok [R_banner w] | _ => Ok acc end;
            do w <- omapM (word_at t) later;
            Ok (R_pattern (List.length acc) w :: acc)
          else Ok acc
      | Some j =>
          fold_left (fun a i => do a <- a; if Nat.leb prev i then Ok a else show_minimal fuel t i (i :: later) j a)
            (seq j (k - j)) (Ok acc)
      end
  end.
(* elide.c:391-411 produce_verbose_report *)
Definition hazard_rows (t : tokbuf) : outcome (list (list bool)) :=
  omapM (fun i => omapM (fun j => is_set (t_conflicts t) i j) (seq 0 i)) (seq 0 (t_n t)).
(* elide.c:504-509 *)
Fixpoint any_set (c : list (list (option N))) (k : nat) (n i : nat) : outcome bool :=
  match n with
  | 0 => Ok false
  | S n => do b <- is_set c k i; if b then Ok true else any_set c k n (S i)
  end.

(* elide.c:461-470; && evaluates from the left and stops *)
Definition retreat (t : tokbuf) : outcome tokbuf :=
  let nn := t_n t in
  if Nat.ltb 1 nn then
    do f <- get (t_flags t) (nn - 2);
    do bv <- init (f_boiveho f);
    if bv then
      do g <- get (t_flags t) (nn - 1);
      do sb <- init (f_subscript g);
      if sb then Ok t
      else
        do r <- get (t_buf t) (nn - 2);
        do r <- init r;
        match snd r with
        | Null => UB UB_null
        | Stale => UB UB_uninit
        | Ptr x =>
            match dat x with
            | N_CMAVO _ _ free => Ok (if free then Tokbuf (nn - 1) (t_max t) (t_rp t) (t_sp t) (t_buf t) (t_conflicts t) (t_flags t) else t)
            | _ => UB UB_other
            end
        end
    else Ok t
  else Ok t.
(* elide.c:489-494 *)
Definition synthetic (t : tokbuf) (prev : bool) : outcome tokbuf :=
  do f <- get (t_flags t) 0;
  do bv <- init (f_boiveho f);
  if bv then
    if prev then
      do g <- get (t_flags t) (t_n t - 1);
      do m <- init (f_marker g);
      if m then
        do c <- set_conflict (t_conflicts t) (t_n t - 1) 0;
        Ok (Tokbuf (t_n t) (t_max t) (t_rp t) (t_sp t) (t_buf t) c (t_flags t))
      else Ok t
    else Ok t
  else Ok t.
(* elide.c:496-531 *)
Definition reporting (verbose : bool) (t : tokbuf) : outcome (list report) :=
  do v <- (if verbose && Nat.ltb 1 (t_n t) then do w <- sequence t; do h <- hazard_rows t; Ok [R_hazards w h] else Ok []);
  do any <- any_set (t_conflicts t) (t_n t - 1) (t_n t) 0;
  if any then do l <- show_minimal (S (t_n t)) t (t_n t - 1) [] (t_n t) []; Ok (v ++ rev l)
  else if Nat.ltb 1 (t_n t) then do w <- sequence t; Ok (v ++ [R_omit w])
  else Ok v.

(* the parser's table: can_shift_in_state, elide.c:110-121, for a token; the value 0 is in
   front of the table *)
Definition can_shift_value (can_shift : nat -> tok -> bool) (s : nat) (r : option reply) : outcome bool :=
  do r <- init r;
  match fst r with Some v => Ok (can_shift s v) | None => UB UB_bounds end.
(* elide.c:538-563 and 604-612; [skip] is the exception for cu *)
Fixpoint mark (can_shift : nat -> tok -> bool) (s : nat) (t : tokbuf) (skip : nat -> outcome bool) (j : nat) (is : list nat) (c : list (list (option N))) : outcome (list (list (option N))) :=
  match is with
  | [] => Ok c
  | i :: is =>
      do r <- get (t_buf t) i;
      do b <- can_shift_value can_shift s r;
      do c <- (if b then do e <- skip i; if e then Ok c else set_conflict c i j else Ok c);
      mark can_shift s t skip j is c
  end.
(* elide.c:547-553 *)
Definition cu_exception (t : tokbuf) (i : nat) : outcome bool :=
  do r <- match t_sp t with 0 => UB UB_bounds | S p => get (t_buf t) p end;
  do r <- init r;
  Ok (Nat.eqb i (t_n t - 1) && Nat.eqb (t_sp t) (t_n t - 1) && match fst r with Some v => tok_eqb v T_CU | None => false end).
(* elide.c:421-564 elide_trace_shift *)
Definition trace_shift (can_shift : nat -> tok -> bool) (verbose : bool) (s : nat) (st : state) : outcome (state * list report) :=
  let t := st_buf st in
  let t := Tokbuf (t_n t) (t_max t) (t_rp t) (t_rp t) (t_buf t) (t_conflicts t) (t_flags t) in
  if Nat.eqb (t_sp t) (t_n t) then
    do t <- retreat t;
    do t <- synthetic t (st_prev st);
    do r <- reporting verbose t;
    Ok (State t (st_prev st) (st_cur st) (st_stream st), r)
  else
    do c <- mark can_shift s t (cu_exception t) (t_sp t - 1) (seq (t_rp t) (t_n t - t_rp t)) (t_conflicts t);
    Ok (State (Tokbuf (t_n t) (t_max t) (t_rp t) (t_sp t) (t_buf t) c (t_flags t)) (st_prev st) (st_cur st) (st_stream st), []).
(* elide.c:573-616 elide_trace_reduce; [sub] for the rules LO_SUBSCRIPT to HI_SUBSCRIPT *)
Definition trace_reduce (can_shift : nat -> tok -> bool) (s : nat) (sub : bool) (st : state) : outcome state :=
  let t := st_buf st in
  do f <- (if sub then do g <- get (t_flags t) (t_sp t); set (t_flags t) (t_sp t) (Flags (f_boiveho g) (Some true) (f_marker g)) else Ok (t_flags t));
  do c <- (if Nat.eqb (t_sp t) (t_rp t) then Ok (t_conflicts t)
           else mark can_shift s t (fun _ => Ok false) (t_sp t) (seq (t_rp t) (t_n t - t_rp t)) (t_conflicts t));
  Ok (State (Tokbuf (t_n t) (t_max t) (t_rp t) (t_sp t) (t_buf t) c f) (st_prev st) (st_cur st) (st_stream st)).

(* what the parser does *)
Inductive event : Type := E_lex | E_shift (s : nat) | E_reduce (s : nat) (sub : bool) | E_advance (code : option tok).
Inductive answer : Type := An_token (r : reply) | An_report (l : list report).
(* the answers to a sequence of events *)
Fixpoint trace (can_shift : nat -> tok -> bool) (verbose : bool) (ts : list node) (es : list event) (st : state) : outcome (list answer) :=
  match es with
  | [] => Ok []
  | E_lex :: es => do p <- yylex ts st; do l <- trace can_shift verbose ts es (fst p); Ok (An_token (snd p) :: l)
  | E_shift s :: es => do p <- trace_shift can_shift verbose s st; do l <- trace can_shift verbose ts es (fst p); Ok (An_report (snd p) :: l)
  | E_reduce s sub :: es => do st <- trace_reduce can_shift s sub st; trace can_shift verbose ts es st
  | E_advance c :: es =>
      do s <- error_advance ts c (st_stream st);
      trace can_shift verbose ts es (State (st_buf st) (st_prev st) (st_cur st) s)
  end.
