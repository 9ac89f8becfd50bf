(* What is quoted has no effect: the texts that differ in quoted words only, and
   the results that differ in the text of quotations only.  Also: the places of
   the emphasis words. *)
From Coq Require Import String List NArith Bool Arith.
From Verif Require Import Base TokData CmavoData TokModel ErasureSpec Lex2Spec.
Import ListNotations.
Open Scope string_scope.
Open Scope list_scope.

(* ---- texts ---- *)

(* the inside of lo'u .. le'u: anything but le'u; a zo takes the word behind it along *)
Inductive body : list node -> Prop :=
| bd_nil : body []
| bd_word x l : ~ is_word "zo" x -> ~ cmavo_of T_LEhU x -> showable x -> body l -> body (x :: l)
| bd_zo x y t l : is_word "zo" x -> reads y t -> body l -> body (x :: y :: l).

(* the same text with other words quoted *)
Inductive quotes_differ : list node -> list node -> Prop :=
| qd_nil : quotes_differ [] []
| qd_word x l l' : ~ is_word "zo" x -> ~ cmavo_of T_LOhU x -> quotes_differ l l' ->
    quotes_differ (x :: l) (x :: l')
| qd_zo x y y' t t' l l' : is_word "zo" x -> reads y t -> reads y' t' -> quotes_differ l l' ->
    quotes_differ (x :: y :: l) (x :: y' :: l')
| qd_lohu x q q' e l l' : ~ is_word "zo" x -> cmavo_of T_LOhU x ->
    body q -> body q' -> q <> [] -> q' <> [] ->
    ~ is_word "zo" e -> cmavo_of T_LEhU e -> quotes_differ l l' ->
    quotes_differ (x :: q ++ e :: l) (x :: q' ++ e :: l').

(* ---- results ---- *)

(* the same item up to the text of quotations, also inside zei compounds,
   letterals and everything attached *)
Inductive sim : node -> node -> Prop :=
| sim_node d d' l c b b' g k u u' : simd d d' -> simo b b' -> sims u u' ->
    sim (Node d l c b g k u) (Node d' l c b' g k u')
with simd : ndata -> ndata -> Prop :=
| sd_same d : simd d d
| sd_zo t t' : simd (N_ZO t) (N_ZO t')
| sd_lohu t t' : simd (N_LOhU t) (N_LOhU t')
| sd_zei ch ch' p p' z z' : sims ch ch' -> simd (N_ZEI ch p z) (N_ZEI ch' p' z')
| sd_bu w w' : simd (N_BU w) (N_BU w')
with simo : option node -> option node -> Prop :=
| so_none : simo None None
| so_some a b : sim a b -> simo (Some a) (Some b)
with sims : list node -> list node -> Prop :=
| ss_nil : sims [] []
| ss_cons x y l m : sim x y -> sims l m -> sims (x :: l) (y :: m).

(* the program does the same thing *)
Definition same_outcome {A} (R : A -> A -> Prop) (o p : outcome A) : Prop :=
  match o, p with
  | Ok a, Ok b => R a b
  | Abort, Abort => True
  | UB k, UB k' => k = k'
  | Exit n, Exit m => n = m
  | _, _ => False
  end.

(* items, warnings about si, and whether a compound went wrong *)
Definition group_alike (r s : list node * list (N * N) * bool) : Prop :=
  sims (fst (fst r)) (fst (fst s)) /\ snd (fst r) = snd (fst s) /\ snd r = snd s.

(* ---- emphasis ---- *)

(* a run of emphasis words: each hangs on the next *)
Fixpoint hang (a : node) (es : list node) : node :=
  match es with [] => a | e :: es => hang (set_bahe (Some a) e) es end.

Inductive bahe_spec : list node -> list node -> Prop :=
| bas_nil : bahe_spec [] []
| bas_word x l r : ~ cmavo_of T_BAhE x -> bahe_spec l r -> bahe_spec (x :: l) (x :: r)
(* in front of a word *)
| bas_mark e es x l r : Forall (cmavo_of T_BAhE) (e :: es) -> ~ cmavo_of T_BAhE x -> ~ cmavo_of T_FAhO x ->
    bahe_spec l r -> bahe_spec (e :: es ++ x :: l) (set_bahe (Some (hang e es)) x :: r)
(* at the end or in front of fa'o *)
| bas_stay e es l r : Forall (cmavo_of T_BAhE) (e :: es) -> head_is (cmavo_of T_FAhO) l ->
    bahe_spec l r -> bahe_spec (e :: es ++ l) (hang e es :: r).

(* ---- all the passes ---- *)

(* zo first, then lo'u, then si, sa, su, zei, emphasis, bu, the suffixes of
   indicators, and last the indicators; only the beginning of the text keeps
   indicators of its own *)
Definition stages (sa su : list node -> list node) (l : list node) (r : list node) (w : list (N * N)) : Prop :=
  exists t1 t2 stack t4 t5 t6 init g,
    zo_spec l t1 /\ lohu_spec t1 t2 /\ si_spec t2 = Some (stack, w) /\
    zei_spec (su (sa (rev stack))) t4 /\ bahe_spec t4 t5 /\ bu_spec t5 t6 /\
    pair_spec t6 (init ++ group_flat g) /\ Forall indicator init /\
    Forall (fun p => ~ indicator (fst p) /\ Forall indicator (snd p)) g /\
    r = init ++ map attach g.
