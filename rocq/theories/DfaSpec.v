(* What a nondeterministic automaton with tagged exits means, stated without
   reference to the algorithms of the generator. *)
From Coq Require Import String List NArith Bool.
From Verif Require Import Base Arr DfaModel.
Import ListNotations.
Open Scope N_scope.

(* ---- the described machine ------------------------------------------ *)

(* the transitions of state [s] *)
Definition edge (A : list nstate) (s : N) (l : option N) (s' : N) : Prop :=
  exists st, nth_error A (N.to_nat s) = Some st /\ In (l, s') (n_trans st).

(* [path A s w s']: reading the token string [w] can lead from [s] to [s'] *)
Inductive path (A : list nstate) : N -> list N -> N -> Prop :=
| path_nil s : path A s [] s
| path_eps s s1 w s2 : edge A s None s1 -> path A s1 w s2 -> path A s w s2
| path_tok s t s1 w s2 : edge A s (Some t) s1 -> path A s1 w s2 -> path A s (t :: w) s2.

(* the tags attached to the states that [w] can lead to *)
Definition tags_after (field : nstate -> list string) (A : list nstate) (start : N)
           (w : list N) (t : string) : Prop :=
  exists s st, path A start w s /\ nth_error A (N.to_nat s) = Some st /\ In t (field st).

(* value of a result expression when exactly the tags in [T] are present;
   [any] says whether an earlier rule has matched *)
Inductive denotes (syms : list (string * expr)) (T : string -> Prop) (any : bool)
  : expr -> bool -> Prop :=
| den_and a b x y : denotes syms T any a x -> (x = true -> denotes syms T any b y) ->
    denotes syms T any (E_AND a b) (x && y)
| den_or a b x y : denotes syms T any a x -> (x = false -> denotes syms T any b y) ->
    denotes syms T any (E_OR a b) (x || y)
| den_xor a b x y : denotes syms T any a x -> denotes syms T any b y ->
    denotes syms T any (E_XOR a b) (xorb x y)
| den_cond a b c x y : denotes syms T any a x ->
    (denotes syms T any (if x then b else c) y) -> denotes syms T any (E_COND a b c) y
| den_not a x : denotes syms T any a x -> denotes syms T any (E_NOT a) (negb x)
| den_wild : denotes syms T any E_WILD any
| den_def s e x : find_symbol syms s = Some e -> denotes syms T any e x ->
    denotes syms T any (E_SYMBOL s) x
| den_tag s : find_symbol syms s = None -> T s -> denotes syms T any (E_SYMBOL s) true
| den_notag s : find_symbol syms s = None -> ~ T s -> denotes syms T any (E_SYMBOL s) false.

(* exactly one rule holds, or none does *)
Inductive selects (x : evaluator) (T : string -> Prop) : option rule -> Prop :=
| sel_none :
    Forall (fun r => denotes (ev_syms x) T false (r_expr r) false) (ev_results x) ->
    selects x T None
| sel_one l r l' :
    ev_results x = l ++ r :: l' ->
    Forall (fun r => denotes (ev_syms x) T false (r_expr r) false) l ->
    denotes (ev_syms x) T false (r_expr r) true ->
    Forall (fun r => denotes (ev_syms x) T true (r_expr r) false) l' ->
    selects x T (Some r).

(* the rule that applies to the string [w] *)
Definition exit_rule (src : source) (w : list N) : option rule -> Prop :=
  selects (s_exit src) (tags_after n_exit (s_nfa src) (s_start src) w).
Definition attr_rule (src : source) (w : list N) : option rule -> Prop :=
  selects (s_attr src) (tags_after n_attr (s_nfa src) (s_start src) w).

(* no proper prefix of [w] already has a result that ends the scan *)
Definition not_ended (src : source) (w : list N) : Prop :=
  forall u t v r, w = u ++ t :: v -> exit_rule src u (Some r) -> r_early r = false.

(* ---- deterministic tables --------------------------------------------- *)

(* entry of a full transition table: [None] is "no transition" *)
Definition entry (rows : list (list (option N))) (s t : N) : option N :=
  match nth_error rows (N.to_nat s) with
  | Some row => match nth_error row (N.to_nat t) with Some d => d | None => None end
  | None => None
  end.

(* the state reached from [s] by the string [w] *)
Fixpoint walk (rows : list (list (option N))) (s : option N) (w : list N) : option N :=
  match w with
  | [] => s
  | t :: w => match s with
              | Some s => walk rows (entry rows s t) w
              | None => None
              end
  end.

(* every destination is a state *)
Definition closed_table (rows : list (list (option N))) : Prop :=
  Forall (Forall (fun d => match d with
                           | Some d => d < N.of_nat (List.length rows)
                           | None => True
                           end)) rows.

(* the same string run through the emitted tables and lookup routine *)
Fixpoint run_tables (tb : tables) (s : option N) (w : list N) : outcome (option N) :=
  match w with
  | [] => Ok s
  | t :: w => do s <- next_state tb s t; run_tables tb s w
  end.

(* what a caller can see of the state reached: dead, or alive with a result
   and the attribute that goes with it, or alive without result *)
Definition observe (dfas : list dnode) (s : option N) : option (option (string * option string)) :=
  match s with
  | None => None
  | Some s =>
      match nth_error dfas (N.to_nat s) with
      | Some d => Some (match d_result d with Some r => Some (r, d_attr d) | None => None end)
      | None => None
      end
  end.

Definition after (dfas : list dnode) (s : N) (w : list N) : option (option (string * option string)) :=
  observe dfas (walk (map d_map dfas) (Some s) w).

(* no string tells the two states apart *)
Definition same_behaviour (dfas : list dnode) (i j : N) : Prop :=
  forall w, after dfas i w = after dfas j w.

(* [w] leads somewhere and no proper prefix already ended the scan *)
Definition alive (src : source) (w : list N) : Prop :=
  (exists s, path (s_nfa src) (s_start src) w s) /\ not_ended src w.

(* [o] is the right state for the description to be in after [w]: dead exactly
   when the description allows no [w]; otherwise the tables of results and
   attributes hold, at that state, the result and attribute the description
   assigns to [w] (the attribute, only where there is a result). *)
Definition answers (src : source) (tb : tables) (w : list N) (o : option N) : Prop :=
  match o with
  | None => ~ alive src w
  | Some i => alive src w /\
      exists re ra, exit_rule src w re /\ attr_rule src w ra /\
        nth_error (t_exit tb) (N.to_nat i) =
          Some (with_default (ev_def (s_exit src)) (option_map r_result re)) /\
        (ev_used (s_attr src) = true -> re <> None ->
         nth_error (t_attr tb) (N.to_nat i) =
           Some (with_default (ev_def (s_attr src)) (option_map r_result ra)))
  end.

(* the attribute of a string, with or without a result *)
Definition attribute_after (dfas : list dnode) (w : list N) : option (option string) :=
  match walk (map d_map dfas) (Some 0) w with
  | None => None
  | Some s => option_map d_attr (nth_error dfas (N.to_nat s))
  end.
