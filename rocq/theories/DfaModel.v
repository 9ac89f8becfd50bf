(* Model of dfasyn, the generator that turns an automaton description
   (morf_nfa.in, bctables.in, stag_nfa.in) into C tables.
   The flex/bison front end (scan.l, parse.y) is not modelled beyond its
   semantic actions: a description is given as the syntax tree [decl list]. *)
From Coq Require Import DecimalString.
From Coq Require Import String Ascii List NArith Bool FMapPositive.
From Verif Require Import Base Arr.
Import ListNotations.
Open Scope N_scope.

(* ===================================================================== *)
(** * Result expressions (dfasyn/expr.c) *)

(* dfasyn/expr.c:15-32 enum ExprType, struct Expr; E_SYMBOL keeps the name
   only, the symbol is looked up at each evaluation instead of being cached
   at the first one (expr.c:329-333). *)
Inductive expr : Set :=
| E_AND (c1 c2 : expr)
| E_OR (c1 c2 : expr)
| E_XOR (c1 c2 : expr)
| E_COND (c1 c2 c3 : expr)
| E_NOT (c1 : expr)
| E_WILD
| E_SYMBOL (name : string).

(* dfasyn/expr.c:48-56 struct Result *)
Record rule : Set := Rule { r_result : string; r_expr : expr; r_early : bool }.

(* dfasyn/expr.c:62-74 struct evaluator.  [ev_syms] holds the symbols with
   is_expr set, most recently defined first; a symbol that is not listed is a
   plain tag, whose value is set by set_symbol_value.  The counters and the
   result type text are left out. *)
Record evaluator : Set := Evaluator {
  ev_syms : list (string * expr);
  ev_results : list rule;
  ev_def : option string;
  ev_used : bool
}.

(* dfasyn/expr.c:84-97 create_evaluator *)
Definition create_evaluator : evaluator := Evaluator [] [] None false.

(* dfasyn/expr.c:201-220 find_symbol_or_create, restricted to the symbols
   defined by an expression *)
Fixpoint find_symbol (syms : list (string * expr)) (s : string) : option expr :=
  match syms with
  | [] => None
  | (n, e) :: syms => if String.eqb n s then Some e else find_symbol syms s
  end.

(* dfasyn/expr.c:298-309 set_symbol_value: exit(2) on a symbol defined by an
   expression; the set symbols are collected in a list. *)
Fixpoint set_symbols (x : evaluator) (tags : list string) : outcome (list string) :=
  match tags with
  | [] => Ok []
  | t :: tags =>
      match find_symbol (ev_syms x) t with
      | Some _ => Exit 2
      | None => do r <- set_symbols x tags; Ok (t :: r)
      end
  end.

(* value of a plain tag after clear_symbol_values (expr.c:286-296) and
   set_symbol_value for each member of [tags] *)
Definition tag_set (tags : list string) (s : string) : bool :=
  existsb (String.eqb s) tags.

(* dfasyn/expr.c:311-346 eval.  The recursion through symbols is bounded by
   [fuel]: evaluate_result passes one more than the number of defined symbols,
   which only a symbol defined in terms of itself can exceed (the C code then
   recurses without end). *)
Fixpoint eval (fuel : nat) (x : evaluator) (tags : list string) (any : bool) (e : expr)
  : outcome bool :=
  match fuel with
  | O => NoFuel
  | S fuel =>
      (fix go (e : expr) : outcome bool :=
         match e with
         | E_AND c1 c2 => do a <- go c1; if a then go c2 else Ok false
         | E_OR c1 c2 => do a <- go c1; if a then Ok true else go c2
         | E_XOR c1 c2 => do a <- go c1; do b <- go c2; Ok (xorb a b)
         | E_COND c1 c2 c3 => do a <- go c1; if a then go c2 else go c3
         | E_NOT c1 => do a <- go c1; Ok (negb a)
         | E_WILD => Ok any
         | E_SYMBOL s =>
             match find_symbol (ev_syms x) s with
             | Some d => eval fuel x tags any d
             | None => Ok (tag_set tags s)
             end
         end) e
  end.

(* dfasyn/expr.c:348-376 evaluate_result: the single rule whose expression
   holds.  The boolean is the C return value (false: more than one rule). *)
Fixpoint pick_rule (x : evaluator) (tags : list string) (rules : list rule)
         (matched : option rule) : outcome (option rule * bool) :=
  match rules with
  | [] => Ok (matched, true)
  | r :: rules =>
      do v <- eval (S (List.length (ev_syms x))) x tags
                (match matched with Some _ => true | None => false end) (r_expr r);
      if v then
        match matched with
        | Some _ => Ok (None, false)
        | None => pick_rule x tags rules (Some r)
        end
      else pick_rule x tags rules matched
  end.

Definition evaluate_result (x : evaluator) (tags : list string)
  : outcome (option rule * bool) :=
  pick_rule x tags (ev_results x) None.

(* ===================================================================== *)
(** * The description and the blocks built from it (parse.y, n2d.c) *)

(* dfasyn/parse.y:107-140 transition_seq, option_seq, inline_block_seq: one
   step of a transition, either alternatives over tokens ([None] is the empty
   option, an epsilon) or over inlined blocks ([None] is an epsilon). *)
Inductive step : Set :=
| Options (l : list (option string))
| Inline (l : list (option (string * string * string))).

(* dfasyn/parse.y:93-103 transition_decl: destinations or an exit tag *)
Inductive target : Set :=
| Goto (l : list string)
| ExitTag (t : string).

(* dfasyn/parse.y:79-91 state_decl *)
Record state_decl : Set := StateDecl {
  sd_name : string;
  sd_attr : option string;
  sd_trans : list (list step * target)
}.

(* dfasyn/parse.y:143-164 result_decl, attr_decl.  TYPE only selects the C type
   printed and is left out. *)
Inductive result_decl : Set :=
| DResult (name : string) (e : option expr) (early : bool)
| DSymResult (name : string) (e : expr) (early : bool)
| DSymbol (name : string) (e : expr)
| DDefault (name : string).

(* dfasyn/parse.y:58-75 decl.  PREFIX only names the C tables and is left out. *)
Inductive decl : Set :=
| DTokens (l : list string)
| DAbbrev (name : string) (l : list string)
| DBlock (name : string) (insts : list (string * string)) (states : list state_decl)
| DExit (d : result_decl)
| DAttr (d : result_decl).

(* dfasyn/n2d.h:49-63 struct State, n2d.h:27-32 struct Translist; destinations
   by name; token [None] is the C value -1, an epsilon transition *)
Record bstate : Set := BState {
  b_name : string;
  b_trans : list (option N * string);
  b_exit : list string;
  b_attr : list string
}.

(* dfasyn/n2d.h:73-91 struct Block.  [bl_index] stands for the hash table of
   names (state_hash): a map from name to position in the state list. *)
Record block : Type := Block {
  bl_states : list bstate;
  bl_index : PositiveMap.t nat;
  bl_sub : N;
  bl_subb : N
}.

(* dfasyn/n2d.c:232-261 create_block *)
Definition create_block : block := Block [] (PositiveMap.empty nat) 1 1.

(* dfasyn/n2d.c:84-117 lookup_token, the search *)
Fixpoint lookup_token (toks : list string) (name : string) (i : N) : option N :=
  match toks with
  | [] => None
  | t :: toks => if String.eqb t name then Some i else lookup_token toks name (N.succ i)
  end.

(* dfasyn/n2d.c:150-184 lookup_abbrev: the most recent definition first *)
Fixpoint lookup_abbrev (ab : list (string * list string)) (name : string)
  : option (list string) :=
  match ab with
  | [] => None
  | (n, l) :: ab => if String.eqb n name then Some l else lookup_abbrev ab name
  end.

(* a name as a key of the map: its bits, after a leading one *)
Definition bit_key (b : bool) (p : positive) : positive := if b then xI p else xO p.
Fixpoint name_key (s : string) (p : positive) : positive :=
  match s with
  | EmptyString => p
  | String (Ascii b0 b1 b2 b3 b4 b5 b6 b7) s =>
      name_key s (bit_key b0 (bit_key b1 (bit_key b2 (bit_key b3
        (bit_key b4 (bit_key b5 (bit_key b6 (bit_key b7 p))))))))
  end.

(* dfasyn/n2d.c:355-391 lookup_state, the search *)
Definition find_state (b : block) (name : string) : option nat :=
  PositiveMap.find (name_key name xH) (bl_index b).

(* dfasyn/n2d.c:334-353 create_state, 355-391 lookup_state with creation *)
Definition lookup_state (b : block) (name : string) : block * nat :=
  match find_state b name with
  | Some i => (b, i)
  | None =>
      (Block (bl_states b ++ [BState name [] [] []])
             (PositiveMap.add (name_key name xH) (List.length (bl_states b)) (bl_index b))
             (bl_sub b) (bl_subb b),
       List.length (bl_states b))
  end.

(* change the state at index [i] of a block (a store through a State pointer,
   e.g. n2d.c:428) *)
Fixpoint upd_nth (f : bstate -> bstate) (l : list bstate) (i : nat) : list bstate :=
  match l, i with
  | [], _ => []
  | s :: l, O => f s :: l
  | s :: l, S i => s :: upd_nth f l i
  end.

Definition upd_state (b : block) (i : nat) (f : bstate -> bstate) : block :=
  Block (upd_nth f (bl_states b) i) (bl_index b) (bl_sub b) (bl_subb b).

(* dfasyn/n2d.c:419-429: put a transition at the front of the list of state i *)
Definition push_trans (b : block) (i : nat) (t : option N) (dest : string) : block :=
  upd_state b i (fun s =>
    BState (b_name s) ((t, dest) :: b_trans s) (b_exit s) (b_attr s)).

(* dfasyn/n2d.c:409-430 add_transition.  [fuel] bounds the nesting of
   abbreviations by their number; only an abbreviation defined in terms of
   itself exceeds it (the C code then recurses without end). *)
Fixpoint add_transition (fuel : nat) (toks : list string) (ab : list (string * list string))
         (b : block) (i : nat) (str : string) (dest : string) : outcome block :=
  match fuel with
  | O => NoFuel
  | S fuel =>
      match lookup_abbrev ab str with
      | Some rhs =>
          fold_left (fun b s => do b <- b; add_transition fuel toks ab b i s dest) rhs (Ok b)
      | None =>
          match lookup_token toks str 0 with
          | Some t => Ok (push_trans b i (Some t) dest)
          | None => Exit 1
          end
      end
  end.

Definition add_transition_opt (toks : list string) (ab : list (string * list string))
           (b : block) (i : nat) (str : option string) (dest : string) : outcome block :=
  match str with
  | None => Ok (push_trans b i None dest)
  | Some s => add_transition (S (List.length ab)) toks ab b i s dest
  end.

(* dfasyn/n2d.c:432-439 add_transitions; [tokens] is in file order and the C
   list, built by add_token (n2d.c:397-407), is in reverse order. *)
Definition add_transitions (toks : list string) (ab : list (string * list string))
           (b : block) (i : nat) (tokens : list (option string)) (dest : string)
  : outcome block :=
  fold_left (fun b s => do b <- b; add_transition_opt toks ab b i s dest)
            (rev tokens) (Ok b).

(* "%d" *)
Definition dec (n : N) : string := DecimalString.NilZero.string_of_uint (N.to_uint n).

(* name of the next internal state, "#%d" (n2d.c:445, 495) *)
Definition fresh_state (b : block) : block * string * nat :=
  let name := String.append "#" (dec (bl_sub b)) in
  let b := Block (bl_states b) (bl_index b) (N.succ (bl_sub b)) (bl_subb b) in
  let '(b, i) := lookup_state b name in (b, name, i).

(* dfasyn/n2d.c:441-449 add_transitions_to_internal *)
Definition add_transitions_to_internal toks ab (b : block) (i : nat)
           (tokens : list (option string)) : outcome (block * nat) :=
  let '(b, name, j) := fresh_state b in
  do b <- add_transitions toks ab b i tokens name; Ok (b, j).

(* dfasyn/n2d.c:528-580 instantiate_block, the copy of one state [s] into the
   instance [inst].  namebuf has 1024 bytes and is filled by strcat unchecked. *)
Definition buffer_ok (s : string) : bool := N.of_nat (String.length s) <? 1024.

Definition copy_state (inst : string) (b : block) (s : bstate) : outcome block :=
  let qual n := String.append inst (String.append "." n) in
  if negb (buffer_ok (qual (b_name s))) then UB UB_bounds
  else if negb (forallb (fun t => buffer_ok (qual (snd t))) (b_trans s)) then UB UB_bounds
  else
    let '(b, i) := lookup_state b (qual (b_name s)) in
    Ok (upd_state b i (fun d =>
          BState (b_name d)
                 (fold_left (fun acc t => (fst t, qual (snd t)) :: acc) (b_trans s) (b_trans d))
                 (rev (b_exit s)) (rev (b_attr s)))).

Definition instantiate_states (b master : block) (inst : string) : outcome block :=
  fold_left (fun b s => do b <- b; copy_state inst b s) (bl_states master) (Ok b).

(* dfasyn/n2d.c:263-296 lookup_block, the search *)
Fixpoint lookup_block (bs : list (string * block)) (name : string) : option block :=
  match bs with
  | [] => None
  | (n, b) :: bs => if String.eqb n name then Some b else lookup_block bs name
  end.

(* dfasyn/n2d.c:528-532 instantiate_block.  [me] is the name of the block under
   construction: a block that instantiates itself while it has states grows
   without end. *)
Definition instantiate_block (bs : list (string * block)) (me : string) (b : block)
           (master inst : string) : outcome block :=
  if String.eqb master me then
    match bl_states b with [] => Ok b | _ => NoFuel end
  else
    match lookup_block bs master with
    | None => Exit 1
    | Some m => instantiate_states b m inst
    end.

(* dfasyn/n2d.c:489-524 add_inline_block_transitions, one inlined block *)
Definition add_inline toks ab bs (me : string) (i : nat) (result : string)
           (b : block) (ib : option (string * string * string)) : outcome block :=
  match ib with
  | None => add_transition_opt toks ab b i None result
  | Some (type, inn, out) =>
      let bname := String.append type (String.append "#" (dec (bl_subb b))) in
      let b := Block (bl_states b) (bl_index b) (bl_sub b) (N.succ (bl_subb b)) in
      do b <- instantiate_block bs me b type bname;
      let '(b, o) := lookup_state b (String.append bname (String.append "." out)) in
      do b <- add_transition_opt toks ab b i None
                (String.append bname (String.append "." inn));
      add_transition_opt toks ab b o None result
  end.

Definition add_inline_block_transitions toks ab bs (me : string) (b : block) (i : nat)
           (l : list (option (string * string * string))) : outcome (block * nat) :=
  let '(b, result, j) := fresh_state b in
  do b <- fold_left (fun b ib => do b <- b; add_inline toks ab bs me i result b ib)
                    (rev l) (Ok b);
  Ok (b, j).

(* dfasyn/parse.y:113-132 transition_seq: [addto] is addtostate and [prev] the
   tokens not yet turned into transitions ($1) *)
Fixpoint add_steps toks ab bs (me : string) (b : block) (addto : nat)
         (prev : option (list (option string))) (l : list step)
  : outcome (block * nat * list (option string)) :=
  match l with
  | [] => Ok (b, addto, match prev with Some p => p | None => [] end)
  | st :: l =>
      do (b, addto) <-
        (match prev with
         | None => Ok (b, addto)
         | Some p => add_transitions_to_internal toks ab b addto p
         end);
      match st with
      | Options o => add_steps toks ab bs me b addto (Some o) l
      | Inline ibs =>
          do (b, addto) <- add_inline_block_transitions toks ab bs me b addto ibs;
          add_steps toks ab bs me b addto (Some [None]) l
      end
  end.

(* dfasyn/parse.y:93-103 transition_decl, n2d.c:451-458 add_exit_value *)
Definition add_trans_decl toks ab bs (me : string) (b : block) (cur : nat)
           (t : list step * target) : outcome block :=
  do (b, addto, prev) <- add_steps toks ab bs me b cur None (fst t);
  match snd t with
  | Goto ds => fold_left (fun b d => do b <- b; add_transitions toks ab b addto prev d) ds (Ok b)
  | ExitTag tag =>
      do (b, j) <- add_transitions_to_internal toks ab b addto prev;
      Ok (upd_state b j (fun s => BState (b_name s) (b_trans s) (tag :: b_exit s) (b_attr s)))
  end.

(* dfasyn/parse.y:79-91 state_decl, n2d.c:460-467 set_state_attribute *)
Definition add_state_decl toks ab bs (me : string) (b : block) (sd : state_decl)
  : outcome (block * nat) :=
  let '(b, cur) := lookup_state b (sd_name sd) in
  let b := match sd_attr sd with
           | Some a => upd_state b cur (fun s =>
                         BState (b_name s) (b_trans s) (b_exit s) (a :: b_attr s))
           | None => b
           end in
  do b <- fold_left (fun b t => do b <- b; add_trans_decl toks ab bs me b cur t)
                    (sd_trans sd) (Ok b);
  Ok (b, cur).

(* dfasyn/n2d.c:582-592 fixup_state_refs: every destination gets a state; states
   created here have no transitions, so one pass over the initial states is
   the same as the C loop, which also visits the new ones. *)
Definition fixup_state_refs (b : block) : block :=
  fold_left (fun b s =>
    fold_left (fun b t => fst (lookup_state b (snd t))) (b_trans s) b) (bl_states b) b.

(* the globals of n2d.c:48-64 and parse.y:14-18 while a description is read *)
Record pstate : Type := PState {
  p_tokens : list string;
  p_abbrevs : list (string * list string);
  p_blocks : list (string * block);
  p_exit : evaluator;
  p_attr : evaluator;
  p_cur : option (string * nat)
}.

(* dfasyn/expr.c:236-284 define_result, define_symbol, define_symresult; 105-109
   define_defresult *)
Definition define (x : evaluator) (d : result_decl) : evaluator :=
  match d with
  | DResult n e early =>
      Evaluator (ev_syms x)
        (ev_results x ++ [Rule n (match e with Some e => e | None => E_SYMBOL n end) early])
        (ev_def x) true
  | DSymResult n e early =>
      Evaluator ((n, e) :: ev_syms x) (ev_results x ++ [Rule n e early]) (ev_def x) true
  | DSymbol n e => Evaluator ((n, e) :: ev_syms x) (ev_results x) (ev_def x) true
  | DDefault n => Evaluator (ev_syms x) (ev_results x) (Some n) true
  end.

(* dfasyn/parse.y:74 token, n2d.c:84-117 lookup_token with CREATE_MUST_NOT_EXIST *)
Definition add_token_decl (toks : outcome (list string)) (t : string) : outcome (list string) :=
  do toks <- toks;
  match lookup_token toks t 0 with
  | Some _ => Exit 1
  | None => Ok (toks ++ [t])
  end.

(* dfasyn/parse.y:62-66 block_decl *)
Definition read_block (p : pstate) (name : string) (insts : list (string * string))
           (states : list state_decl) : outcome pstate :=
  match lookup_block (p_blocks p) name with
  | Some _ => Exit 1
  | None =>
      do b <- fold_left (fun b ic => do b <- b;
                           instantiate_block (p_blocks p) name b (snd ic) (fst ic))
                        insts (Ok create_block);
      do (b, cur) <-
        fold_left (fun bc sd =>
                     do bc <- bc;
                     do (b, i) <- add_state_decl (p_tokens p) (p_abbrevs p) (p_blocks p)
                                    name (fst bc) sd;
                     Ok (b, Some (name, i)))
                  states (Ok (b, None));
      let b := fixup_state_refs b in
      Ok (PState (p_tokens p) (p_abbrevs p) (p_blocks p ++ [(name, b)])
                 (p_exit p) (p_attr p) cur)
  end.

(* dfasyn/parse.y:56-58 decl_seq *)
Definition read_decl (p : outcome pstate) (d : decl) : outcome pstate :=
  do p <- p;
  match d with
  | DTokens l =>
      do toks <- fold_left add_token_decl l (Ok (p_tokens p));
      Ok (PState toks (p_abbrevs p) (p_blocks p) (p_exit p) (p_attr p) (p_cur p))
  | DAbbrev n l =>
      Ok (PState (p_tokens p) ((n, l) :: p_abbrevs p) (p_blocks p) (p_exit p) (p_attr p) (p_cur p))
  | DBlock n i s => read_block p n i s
  | DExit r =>
      Ok (PState (p_tokens p) (p_abbrevs p) (p_blocks p) (define (p_exit p) r) (p_attr p) (p_cur p))
  | DAttr r =>
      Ok (PState (p_tokens p) (p_abbrevs p) (p_blocks p) (p_exit p) (define (p_attr p) r) (p_cur p))
  end.

(* The finished NFA: dfasyn/n2d.h:49-63 struct State with ds_ref resolved to
   the index of the destination. *)
Record nstate : Set := NState {
  n_trans : list (option N * N);
  n_exit : list string;
  n_attr : list string
}.

(* dfasyn/n2d.c:582-592: ds_ref of each transition of the main block *)
Definition resolve (b : block) (s : bstate) : nstate :=
  NState (map (fun t => (fst t,
                match find_state b (snd t) with
                | Some i => N.of_nat i
                | None => 0
                end)) (b_trans s))
         (b_exit s) (b_attr s).

Record source : Set := Source {
  s_ntok : N;
  s_nfa : list nstate;
  s_start : N;
  s_exit : evaluator;
  s_attr : evaluator
}.

(* dfasyn/n2d.c:1528-1533 main, up to the epsilon closure: get_curstate() is a
   null pointer when the last block has no state *)
Definition read_description (ds : list decl) : outcome source :=
  do p <- fold_left read_decl ds
            (Ok (PState [] [] [] create_evaluator create_evaluator None));
  match p_cur p with
  | None => UB UB_null
  | Some (bn, i) =>
      match lookup_block (p_blocks p) bn with
      | None => UB UB_null
      | Some b =>
          Ok (Source (N.of_nat (List.length (p_tokens p))) (map (resolve b) (bl_states b))
                     (N.of_nat i) (p_exit p) (p_attr p))
      end
  end.

(* ===================================================================== *)
(** * NFA to DFA (n2d.c).  A bitmap (array of unsigned long, 32 bits used per
      element) is modelled as the number with the same bits. *)

(* dfasyn/n2d.c:601-603 round_up *)
Definition round_up (n : N) : N := N.shiftr (n + 31) 5.

(* the members of a bitmap in ascending order (the two nested loops over
   words and bits at n2d.c:644-646, 1060-1065) *)
Fixpoint pbits (p : positive) (i : N) : list N :=
  match p with
  | xH => [i]
  | xO p => pbits p (N.succ i)
  | xI p => i :: pbits p (N.succ i)
  end.

Definition bits (x : N) : list N :=
  match x with N0 => [] | Npos p => pbits p 0 end.

(* element i of the bitmap array *)
Definition word (x i : N) : N := N.land (N.shiftr x (32 * i)) (N.ones 32).

(* 0, 1, ..., n-1 *)
Fixpoint upto_from (i : N) (n : nat) : list N :=
  match n with O => [] | S n => i :: upto_from (N.succ i) n end.
Definition upto (n : N) : list N := upto_from 0 (N.to_nat n).

(* dfasyn/n2d.c:684-697 generate_epsilon_closure: the immediate row of state i *)
Definition eclo_init (i : N) (s : nstate) : N :=
  fold_left (fun row t => match fst t with
                          | None => N.setbit row (snd t)
                          | Some _ => row
                          end) (n_trans s) (N.setbit 0 i).

(* dfasyn/n2d.c:648-657: merge row [j] into the row of state [from] *)
Definition merge_row (rows : arr N) (from : N) (st : N * N * bool) (j : N) : N * N * bool :=
  let '(row, todo, chg) := st in
  let to_merge := if N.eqb j from then row
                  else match aget rows j with Some r => r | None => 0 end in
  let diffs := N.ldiff to_merge row in
  (N.lor row to_merge, N.lor todo diffs, chg || negb (N.eqb diffs 0)).

(* dfasyn/n2d.c:641-664: word i of the worklist *)
Definition close_word (rows : arr N) (from : N) (st : N * N * bool) (i : N) : N * N * bool :=
  let '(row, todo, chg) := st in
  if N.eqb todo 0 then st
  else
    let this := word todo i in
    if N.eqb this 0 then st
    else
      let todo := N.ldiff todo (N.shiftl (N.ones 32) (32 * i)) in
      fold_left (merge_row rows from) (map (N.add (32 * i)) (bits this)) (row, todo, chg).

(* dfasyn/n2d.c:636-666: one iteration of while (any_changes) *)
Definition close_pass (nru : N) (rows : arr N) (from : N) (st : N * N) : (N * N) + N :=
  let '(row, todo) := st in
  let '(row, todo, chg) := fold_left (close_word rows from) (upto nru) (row, todo, false) in
  if chg : bool then inl (row, todo) else inr row.

(* dfasyn/n2d.c:620-669 transitively_close_eclo *)
Definition close_row (n : N) (rows : outcome (arr N)) (from : N) : outcome (arr N) :=
  do rows <- rows;
  let row := match aget rows from with Some r => r | None => 0 end in
  match loop (close_pass (round_up n) rows from) (N.succ_pos n) (row, row) with
  | inl _ => NoFuel
  | inr row => Ok (aset rows from row)
  end.

Definition epsilon_closure (nfa : list nstate) : outcome (arr N) :=
  let n := N.of_nat (List.length nfa) in
  let rows := aof (map (fun p => eclo_init (fst p) (snd p)) (combine (upto n) nfa)) in
  fold_left (close_row n) (upto n) (Ok rows).

(* dfasyn/n2d.c:788-801 build_transmap, the row of one NFA state: for each
   token the union of the closures of the destinations *)
Definition or_at (l : list N) (t : N) (x : N) : list N :=
  map (fun p => if N.eqb (fst p) t then N.lor (snd p) x else snd p)
      (combine (upto (N.of_nat (List.length l))) l).

Definition transmap_row (nt : N) (eclo : arr N) (s : nstate) : list N :=
  fold_left (fun row t =>
    match fst t with
    | None => row
    | Some tok => or_at row tok (match aget eclo (snd t) with Some x => x | None => 0 end)
    end) (n_trans s) (map (fun _ => 0) (upto nt)).

Definition build_transmap (nt : N) (eclo : arr N) (nfa : list nstate) : arr (list N) :=
  aof (map (transmap_row nt eclo) nfa).

(* dfasyn/n2d.h:93-138 DFANode: the fields used for the output *)
Record dnode : Set := DNode {
  d_result : option string;
  d_early : bool;
  d_attr : option string;
  d_map : list (option N)
}.

(* dfasyn/n2d.c:833-840 fold_signature *)
Definition fold_signature (sig : N) : N :=
  let f := N.lxor sig (N.shiftr sig 16) in
  N.land (N.lxor f (N.shiftr f 8)) 255.

(* dfasyn/n2d.c:854-856, 909-913: exclusive or of the bitmap words *)
Fixpoint xor_words (n : nat) (x : N) : N :=
  match n with
  | O => 0
  | S n => N.lxor (N.land x (N.ones 32)) (xor_words n (N.shiftr x 32))
  end.

Definition signature (nru : N) (x : N) : N := xor_words (N.to_nat nru) x.

(* dfasyn/n2d.c:816-825 dfa_hashtable: chains of (signature, bitmap, index) *)
Definition htable : Type := arr (list (N * N * N)).

(* dfasyn/n2d.c:859-874 find_dfa, the search of one chain *)
Fixpoint find_chain (sig bm : N) (chain : list (N * N * N)) : option N :=
  match chain with
  | [] => None
  | (s, b, i) :: chain =>
      if N.eqb sig s then
        if N.eqb bm b then Some i else find_chain sig bm chain
      else find_chain sig bm chain
  end.

Definition chain_of (h : htable) (k : N) : list (N * N * N) :=
  match aget h k with Some c => c | None => [] end.

(* dfasyn/n2d.c:843-877 find_dfa *)
Definition find_dfa (nru : N) (h : htable) (bm : N) : option N :=
  let sig := signature nru bm in
  find_chain sig bm (chain_of h (fold_signature sig)).

(* dfasyn/n2d.c:929-941: the tags of the member states.  The C list is built
   by prepending; only membership is used. *)
Definition tags_of (field : nstate -> list string) (nfa : arr nstate) (bm : N) : list string :=
  flat_map (fun j => match aget nfa j with Some s => field s | None => [] end) (bits bm).

(* dfasyn/n2d.c:924-989 add_dfa, the two boolean reductions.  The boolean says
   that one of them was ambiguous.  For an ambiguous exit the C code leaves
   result_early unset and build_dfa then reads it (n2d.c:1049); whatever it
   reads, main ends with exit(2) (n2d.c:1551-1554), so the model takes false. *)
Definition reduce (src : source) (nfa : arr nstate) (bm : N)
  : outcome (option string * bool * option string * bool) :=
  do te <- set_symbols (s_exit src) (tags_of n_exit nfa bm);
  do (re, ok1) <- evaluate_result (s_exit src) te;
  do ta <- set_symbols (s_attr src) (tags_of n_attr nfa bm);
  do (ra, ok2) <- evaluate_result (s_attr src) ta;
  Ok (option_map r_result re,
      match re with Some r => r_early r | None => false end,
      option_map r_result ra,
      negb ok1 || negb ok2).

(* a DFA state known but without its outgoing map yet *)
Record pending : Set := Pending {
  q_nfas : N;
  q_result : option string;
  q_early : bool;
  q_attr : option string
}.

(* the variables of build_dfa: finished states (last first), known states still
   to do, hash table, number of states, had_ambiguous_result *)
Record dstate : Type := DState {
  ds_done : list dnode;
  ds_todo : list pending;
  ds_hash : htable;
  ds_n : N;
  ds_amb : bool
}.

(* dfasyn/n2d.c:880-992 add_dfa *)
Definition add_dfa (src : source) (nfa : arr nstate) (nru : N) (st : dstate) (bm : N)
  : outcome dstate :=
  let sig := signature nru bm in
  let k := fold_signature sig in
  do (res, early, attr, amb) <- reduce src nfa bm;
  Ok (DState (ds_done st)
             (ds_todo st ++ [Pending bm res early attr])
             (aset (ds_hash st) k ((sig, bm, ds_n st) :: chain_of (ds_hash st) k))
             (N.succ (ds_n st)) (ds_amb st || amb)).

(* dfasyn/n2d.c:1060-1088: for every token the union of the transition maps of
   the member states; found_any is "not empty" *)
Definition union_rows (a b : list N) : list N :=
  map (fun p => N.lor (fst p) (snd p)) (combine a b).

Definition successors (nt : N) (tm : arr (list N)) (bm : N) : list N :=
  fold_left (fun acc j => match aget tm j with
                          | Some row => union_rows acc row
                          | None => acc
                          end) (bits bm) (map (fun _ => 0) (upto nt)).

(* dfasyn/n2d.c:1090-1100: destination of one token *)
Definition visit (src : source) (nfa : arr nstate) (nru : N)
           (acc : outcome (dstate * list (option N))) (bm : N)
  : outcome (dstate * list (option N)) :=
  do (st, m) <- acc;
  if N.eqb bm 0 then Ok (st, None :: m)
  else match find_dfa nru (ds_hash st) bm with
       | Some i => Ok (st, Some i :: m)
       | None =>
           let i := ds_n st in
           do st <- add_dfa src nfa nru st bm; Ok (st, Some i :: m)
       end.

(* dfasyn/n2d.c:1036-1103: one iteration of while (next_to_do < ndfa) *)
Definition build_step (src : source) (nfa : arr nstate) (tm : arr (list N)) (nru : N)
           (st : dstate) : dstate + outcome (list dnode * bool) :=
  match ds_todo st with
  | [] => inr (Ok (rev (ds_done st), ds_amb st))
  | q :: todo =>
      let st1 := DState (ds_done st) todo (ds_hash st) (ds_n st) (ds_amb st) in
      if q_early q then
        inl (DState (DNode (q_result q) true (q_attr q) (map (fun _ => None) (upto (s_ntok src)))
                     :: ds_done st) todo (ds_hash st) (ds_n st) (ds_amb st))
      else
        match fold_left (visit src nfa nru) (successors (s_ntok src) tm (q_nfas q))
                        (Ok (st1, [])) with
        | Ok (st, m) =>
            inl (DState (DNode (q_result q) false (q_attr q) (rev m) :: ds_done st)
                        (ds_todo st) (ds_hash st) (ds_n st) (ds_amb st))
        | Abort => inr Abort
        | UB k => inr (UB k)
        | Exit n => inr (Exit n)
        | NoFuel => inr NoFuel
        end
  end.

(* dfasyn/n2d.c:1003-1108 build_dfa.  The iteration bound is the number of
   subsets of the NFA states plus one. *)
Definition build_dfa (src : source) : outcome (list dnode * bool) :=
  let n := N.of_nat (List.length (s_nfa src)) in
  let nru := round_up n in
  let nfa := aof (s_nfa src) in
  do eclo <- epsilon_closure (s_nfa src);
  let tm := build_transmap (s_ntok src) eclo (s_nfa src) in
  let start := match aget eclo (s_start src) with Some x => x | None => 0 end in
  do st <- add_dfa src nfa nru (DState [] [] (aof []) 0 false) start;
  match loop (build_step src nfa tm nru) (N.succ_pos (N.shiftl 1 n)) st with
  | inl _ => NoFuel
  | inr r => r
  end.

(* dfasyn/n2d.c:1539-1554 main: an ambiguous result ends the program *)
Definition raw_dfa (src : source) : outcome (list dnode) :=
  do (d, amb) <- build_dfa src;
  if amb : bool then Exit 2 else Ok d.

(* ===================================================================== *)
(** * Merging equivalent states (compdfa.c) *)

(* qsort (libc): merge sort.  The order given to elements that compare equal
   does not influence the classes. *)
Section Sort.
  Variable A : Type.
  Variable le : A -> A -> bool.

  Fixpoint merge (l1 : list A) : list A -> list A :=
    fix go (l2 : list A) : list A :=
      match l1, l2 with
      | [], _ => l2
      | _, [] => l1
      | x :: l1', y :: l2' => if le x y then x :: merge l1' l2 else y :: go l2'
      end.

  Fixpoint merge_pairs (ls : list (list A)) : list (list A) :=
    match ls with
    | a :: b :: ls => merge a b :: merge_pairs ls
    | _ => ls
    end.

  Fixpoint merge_all (fuel : nat) (ls : list (list A)) : list A :=
    match fuel, ls with
    | _, [] => []
    | _, [l] => l
    | O, _ => concat ls
    | S fuel, _ => merge_all fuel (merge_pairs ls)
    end.

  Definition sort (l : list A) : list A :=
    merge_all (List.length l) (map (fun x => [x]) l).
End Sort.
Arguments merge {A}.
Arguments merge_pairs {A}.
Arguments merge_all {A}.
Arguments sort {A}.

(* dfasyn/tabcompr.c:18-25 increment *)
Definition increment (x field : N) : N :=
  let f2 := field + field in
  let g := N.land (N.shiftr x f2) 3 in
  let h := if (N.eqb g 0 || N.eqb g 3)%bool then 1 else 2 in
  N.lxor x (N.shiftl h f2).

(* dfasyn/compdfa.c:145-178 initial_compare *)
Definition option_compare {A} (cmp : A -> A -> comparison) (a b : option A) : comparison :=
  match a, b with
  | None, None => Eq
  | None, Some _ => Lt
  | Some _, None => Gt
  | Some a, Some b => cmp a b
  end.

Definition initial_compare (a b : dnode) : comparison :=
  match d_result a, d_result b with
  | None, Some _ => Lt
  | Some _, None => Gt
  | None, None => Eq
  | Some x, Some y =>
      match String.compare x y with
      | Lt => Lt
      | Gt => Gt
      | Eq => option_compare String.compare (d_attr a) (d_attr b)
      end
  end.

Definition cmp_le (c : comparison) : bool :=
  match c with Gt => false | _ => true end.

(* dfasyn/compdfa.c:186-198: classes along the sorted sequence *)
Fixpoint number_initial (prev : dnode) (last : N) (seq : list (dnode * N)) (acc : arr N)
  : N * arr N :=
  match seq with
  | [] => (last, acc)
  | (d, i) :: seq =>
      match initial_compare prev d with
      | Eq => number_initial d last seq (aset acc i last)
      | _ => number_initial d (N.succ last) seq (aset acc i (N.succ last))
      end
  end.

(* dfasyn/compdfa.c:180-199 assign_initial_classes: (last_eq_class, eq_class) *)
Definition assign_initial_classes (dfas : list dnode) : N * arr N :=
  match sort (fun a b => cmp_le (initial_compare (fst a) (fst b)))
             (combine dfas (upto (N.of_nat (List.length dfas)))) with
  | [] => (0, aof [])
  | (d, i) :: seq => number_initial d 0 seq (aset (aof []) i 0)
  end.

(* class of a state, total *)
Definition class_of (cls : arr N) (i : N) : N :=
  match aget cls i with Some c => c | None => 0 end.

(* what general_compare looks at: class, signature and, per token, one more
   than the class of the destination (0 for none) *)
Definition skey : Set := (N * N * list N).

Definition dest_classes (cls : arr N) (m : list (option N)) : list N :=
  map (fun d => match d with Some d => N.succ (class_of cls d) | None => 0 end) m.

(* dfasyn/compdfa.c:45-65 calculate_signatures *)
Definition class_sig (cls : arr N) (m : list (option N)) : N :=
  fold_left (fun s d => match d with
                        | Some d => increment s (N.land (class_of cls d) 15)
                        | None => s
                        end) m 0.

Definition state_key (cls : arr N) (i : N) (d : dnode) : skey :=
  (class_of cls i, class_sig cls (d_map d), dest_classes cls (d_map d)).

Fixpoint list_compare (a b : list N) : comparison :=
  match a, b with
  | [], [] => Eq
  | [], _ => Lt
  | _, [] => Gt
  | x :: a, y :: b =>
      match N.compare x y with Eq => list_compare a b | c => c end
  end.

(* dfasyn/compdfa.c:68-102 general_compare *)
Definition general_compare (a b : skey) : comparison :=
  let '(ca, sa, ma) := a in
  let '(cb, sb, mb) := b in
  match N.compare ca cb with
  | Eq => match N.compare sa sb with
          | Eq => list_compare ma mb
          | c => c
          end
  | c => c
  end.

(* dfasyn/compdfa.c:113-137: new classes along the sorted sequence; [prev] and
   [pnew] are seq[i-1] and its new class *)
Fixpoint split_seq (prev : skey) (pnew : N) (last : N) (had : bool)
         (seq : list (skey * N)) (acc : arr N) : N * bool * arr N :=
  match seq with
  | [] => (last, had, acc)
  | (k, i) :: seq =>
      let c := fst (fst k) in
      if N.eqb c (fst (fst prev)) then
        match general_compare k prev with
        | Eq => split_seq k pnew last had seq (aset acc i pnew)
        | _ => split_seq k (N.succ last) (N.succ last) true seq (aset acc i (N.succ last))
        end
      else split_seq k c last had seq (aset acc i c)
  end.

(* dfasyn/compdfa.c:105-143 split_classes and the loop around it (315-318) *)
Definition split_classes (dfas : list dnode) (st : N * arr N) : (N * arr N) + (N * arr N) :=
  let '(last, cls) := st in
  let n := N.of_nat (List.length dfas) in
  match sort (fun a b => cmp_le (general_compare (fst a) (fst b)))
             (map (fun p => (state_key cls (fst p) (snd p), fst p)) (combine (upto n) dfas)) with
  | [] => inr st
  | (k, i) :: seq =>
      let '(last, had, cls) :=
        split_seq k (fst (fst k)) last false seq (aset (aof []) i (fst (fst k))) in
      if had : bool then inl (last, cls) else inr (last, cls)
  end.

(* dfasyn/compdfa.c:218-245 compress_states: the first state of each class
   represents it; new_index of every state, and which states are kept *)
Fixpoint choose_reps (cls : arr N) (i : N) (n : nat) (reps : arr N) (next : N)
  : list (N * bool) :=
  match n with
  | O => []
  | S n =>
      let c := class_of cls i in
      match aget reps c with
      | Some r => (r, false) :: choose_reps cls (N.succ i) n reps next
      | None => (next, true) :: choose_reps cls (N.succ i) n (aset reps c next) (N.succ next)
      end
  end.

(* dfasyn/compdfa.c:247-264 compress_states: redirect transitions, keep the
   representatives *)
Definition remap (idx : arr N) (d : dnode) : dnode :=
  DNode (d_result d) (d_early d) (d_attr d)
        (map (fun x => match x with
                       | Some x => Some (match aget idx x with Some y => y | None => 0 end)
                       | None => None
                       end) (d_map d)).

Definition compress_states (dfas : list dnode) (cls : arr N) : list dnode :=
  let reps := choose_reps cls 0 (List.length dfas) (aof []) 0 in
  let idx := aof (map fst reps) in
  map (fun p => remap idx (fst p))
      (filter (fun p => snd (snd p)) (combine dfas reps)).

(* dfasyn/compdfa.c:296-329 compress_dfa *)
Definition compress_dfa (dfas : list dnode) : outcome (list dnode) :=
  match dfas with
  | [] => Ok []
  | _ =>
      match loop (split_classes dfas) (N.succ_pos (N.of_nat (List.length dfas)))
                 (assign_initial_classes dfas) with
      | inl _ => NoFuel
      | inr (_, cls) => Ok (compress_states dfas cls)
      end
  end.

(* ===================================================================== *)
(** * Transition table compression (tabcompr.c) and the emitted tables *)

(* dfasyn/tabcompr.c:30-43 count_bits_set, on the 32 bit signatures *)
Definition count_bits_set (x : N) : N :=
  let c := 1431655765 in
  let y := N.land (N.shiftr x 1) c + N.land x c in
  let c := 858993459 in
  let y := N.land (N.shiftr y 2) c + N.land y c in
  let y := N.shiftr y 4 + y in
  let y := N.land y 252645135 in
  let y := N.shiftr y 8 + y in
  let y := N.shiftr y 16 + y in
  N.land y 31.

(* dfasyn/tabcompr.c:53-66 compute_transition_sigs; -1 & 0xf is 15 *)
Definition transition_sig (m : list (option N)) : N :=
  fold_left (fun ts d => increment ts (match d with Some d => N.land d 15 | None => 15 end)) m 0.

Definition opt_eqb (a b : option N) : bool :=
  match a, b with
  | None, None => true
  | Some a, Some b => N.eqb a b
  | _, _ => false
  end.

(* number of tokens on which two rows differ (tabcompr.c:108-113) *)
Definition diff_size (a b : list (option N)) : N :=
  N.of_nat (List.length (filter (fun p => negb (opt_eqb (fst p) (snd p))) (combine a b))).

(* number of transitions of a row (tabcompr.c:83-86) *)
Definition trans_count (m : list (option N)) : N :=
  N.of_nat (List.length (filter (fun d => match d with Some _ => true | None => false end) m)).

(* a row with its signature and chosen default state *)
Record crow : Set := CRow { c_map : list (option N); c_sig : N; c_def : option N }.

(* dfasyn/tabcompr.c:92-121: try row j as the default of the current row *)
Definition consider (m : list (option N)) (tc tsi : N)
           (best : option N * N) (cand : N * crow) : option N * N :=
  let '(j, r) := cand in
  match c_def r with
  | Some _ => best
  | None =>
      let d := count_bits_set (N.lxor tsi (c_sig r)) in
      if snd best <=? d then best
      else if tc <=? d then best
      else
        let d := diff_size m (c_map r) in
        if ((match fst best with None => true | Some _ => false end) || (d <? snd best))
           && (d + 2 <? tc)
        then (Some j, d) else best
  end.

(* dfasyn/tabcompr.c:73-126 find_default_states, rows 0 .. i-1 in [earlier] *)
Fixpoint find_defaults (nt : N) (earlier : list (N * crow)) (i : N)
         (maps : list (list (option N))) : list crow :=
  match maps with
  | [] => []
  | m :: maps =>
      let tsi := transition_sig m in
      let best := fold_left (consider m (trans_count m) tsi) earlier (None, nt + 1) in
      let r := CRow m tsi (fst best) in
      r :: find_defaults nt (earlier ++ [(i, r)]) (N.succ i) maps
  end.

(* dfasyn/tabcompr.c:130-135 compress_transition_table *)
Definition compress_transition_table (nt : N) (dfas : list dnode) : list crow :=
  find_defaults nt [] 0 (map d_map dfas).

(* dfasyn/n2d.c:1282-1290 check_include_char *)
Definition include_char (dflt : option (list (option N))) (t : N) (d : option N) : bool :=
  match dflt with
  | Some m => negb (opt_eqb d (match nth_error m (N.to_nat t) with Some x => x | None => None end))
  | None => match d with Some _ => true | None => false end
  end.

(* the entries kept for one state: (token, next state) *)
Definition kept_entries (rows : arr crow) (r : crow) : list (N * option N) :=
  let dflt := match c_def r with
              | Some j => option_map c_map (aget rows j)
              | None => None
              end in
  filter (fun p => include_char dflt (fst p) (snd p))
         (combine (upto (N.of_nat (List.length (c_map r)))) (c_map r)).

(* The emitted tables (dfasyn/n2d.c:1338-1434 print_compressed_tables, 1184-1228
   exit values and attributes).  Numbers are stored in C types: unsigned char
   tokens, short next states and default states, unsigned short bases. *)
Record tables : Type := Tables {
  t_token : arr N;
  t_next : arr (option N);
  t_base : arr N;
  t_def : arr (option N);
  t_exit : list string;
  t_attr : list string
}.

(* conversion to unsigned char, unsigned short *)
Definition to_u8 (x : N) : N := x mod 256.
Definition to_u16 (x : N) : N := x mod 65536.
(* conversion of a state number (or -1) to short; a value that becomes negative
   is given as [None] like -1, the emitted code only tests for >= 0 *)
Definition to_s16 (x : option N) : option N :=
  match x with
  | None => None
  | Some x => let y := x mod 65536 in if y <? 32768 then Some y else None
  end.

Fixpoint bases (n : N) (ls : list (list (N * option N))) : list N :=
  match ls with
  | [] => [n]
  | l :: ls => n :: bases (n + N.of_nat (List.length l)) ls
  end.

Definition with_default (def : option string) (x : option string) : string :=
  match x with
  | Some s => s
  | None => match def with Some s => s | None => "0" end
  end%string.

Definition print_tables (src : source) (dfas : list dnode) : tables :=
  let crows := compress_transition_table (s_ntok src) dfas in
  let rows := aof crows in
  let kept := map (kept_entries rows) crows in
  Tables (aof (map (fun p => to_u8 (fst p)) (concat kept)))
         (aof (map (fun p => to_s16 (snd p)) (concat kept)))
         (aof (map to_u16 (bases 0 kept)))
         (aof (map (fun r => to_s16 (c_def r)) crows))
         (map (fun d => with_default (ev_def (s_exit src)) (d_result d)) dfas)
         (if ev_used (s_attr src)
          then map (fun d => with_default (ev_def (s_attr src)) (d_attr d)) dfas else []).

(* The emitted lookup routine (dfasyn/n2d.c:1292-1312).  [bisect] is the inner
   while loop: [Some m] when the token was found at m. *)
Definition bisect_step (tok : arr N) (t : N) (lh : N * N) : (N * N) + outcome (option N) :=
  let '(l, h) := lh in
  if l <? h then
    let m := N.shiftr (h + l) 1 in
    match aget tok m with
    | None => inr (UB UB_bounds)
    | Some xm =>
        if N.eqb xm t then inr (Ok (Some m))
        else if N.eqb m l then inr (Ok None)
        else if t <? xm then inl (l, m) else inl (m, h)
    end
  else inr (Ok None).

Definition bisect (tok : arr N) (t l h : N) : outcome (option N) :=
  match loop (bisect_step tok t) (N.succ_pos h) (l, h) with
  | inl _ => NoFuel
  | inr r => r
  end.

(* the outer while loop; the chain of default states is followed at most once
   per state *)
Fixpoint next_state_loop (fuel : nat) (tb : tables) (cur : N) (t : N) : outcome (option N) :=
  match fuel with
  | O => NoFuel
  | S fuel =>
      match aget (t_base tb) cur, aget (t_base tb) (N.succ cur) with
      | Some l, Some h =>
          do r <- bisect (t_token tb) t l h;
          match r with
          | Some m =>
              match aget (t_next tb) m with
              | Some d => Ok d
              | None => UB UB_bounds
              end
          | None =>
              match aget (t_def tb) cur with
              | None => UB UB_bounds
              | Some None => Ok None
              | Some (Some d) => next_state_loop fuel tb d t
              end
          end
      | _, _ => UB UB_bounds
      end
  end.

(* next_state(current_state, next_token) for a token >= 0; [None] is -1 *)
Definition next_state (tb : tables) (cur : option N) (t : N) : outcome (option N) :=
  match cur with
  | None => Ok None
  | Some c => next_state_loop (S (List.length (t_exit tb))) tb c t
  end.

(* dfasyn/n2d.c:1451-1588 main, default options: read, determinise, merge,
   compress, print *)
Definition dfasyn (ds : list decl) : outcome tables :=
  do src <- read_description ds;
  do d <- raw_dfa src;
  do d <- compress_dfa d;
  Ok (print_tables src d).
