(* tenses.c, relative.c and errorscan.c: passes over the parse tree after
   expand_bahe_ui. *)
From Coq Require Import String List NArith Bool Arith.
From Verif Require Import Base TokData CmavoData TokModel TreeModel.
Import ListNotations.
Open Scope string_scope.
Open Scope list_scope.

(* nodes.h:264-272 tense_contexts *)
Inductive tense_ctx : Set :=
| TSC_OTHER | TSC_SELBRI | TSC_TERM | TSC_NOUN | TSC_LINK | TSC_CONNECT | TSC_JAITAG.

Definition one_of (ty : string) (l : list string) : bool := existsb (String.eqb ty) l.

(* an ancestor of a node: path, type, children.  A word inside an AUGMENTED node keeps
   its old parent pointer (tree.c:586-640 does not change it), so AUGMENTED nodes are not
   among the ancestors.  The parent pointers of ba'e and of indicators, which are not
   set, are taken to be the same; no function here uses them. *)
Definition ancestors : Type := list (path * string * list tree).
Definition enter (p : path) (ty : string) (ch : list tree) (anc : ancestors) : ancestors :=
  if String.eqb ty "AUGMENTED" then anc else (p, ty, ch) :: anc.

(* tenses.c:32-137 check_tense_context: the context written to the node, None if
   nothing is written.  The list holds the ancestors, the parent first. *)
Fixpoint check_tense_context (anc : ancestors) : outcome (option tense_ctx) :=
  match anc with
  | [] => UB UB_null
  | (_, ty, _) :: up =>
      if one_of ty ["TERM_TAGGED_SUMTI"; "TAGGED_TERMSET"] then Ok (Some TSC_TERM)
      else if one_of ty ["TEXT_1C"; "I_JJ_STAG_BO"; "GIHEK_STAG_KE"; "GIHEK_STAG_BO"; "JOIK_EK_KE"; "JOIK_EK_STAG_BO";
                         "JOIK_STAG_KE"; "JOIK_JEK_STAG_BO"] then Ok (Some TSC_LINK)
      else if one_of ty ["SUMTI_5B"; "SUMTI_TAIL_1"] then Ok (Some TSC_NOUN)
      else if one_of ty ["STATEMENT_3"; "TERM_FLOATING_TENSE"; "GEK_SENTENCE"; "MAIN_SELBRI"; "METALINGUISTIC_MAIN_SELBRI"]
      then Ok (Some TSC_SELBRI)
      else if String.eqb ty "JAI_TAG_TU2" then Ok (Some TSC_JAITAG)
      else if one_of ty ["MEX_OPERATOR"; "OPERAND_3"; "COMPLEX_TENSE_MODAL"; "FREE"] then Ok None
      else if String.eqb ty "GEK" then Ok (Some TSC_CONNECT)
      else if String.eqb ty "CHUNKS" then Abort
      else check_tense_context up
  end.

(* tenses.c:147-189: the nodes whose context is looked for *)
Definition tense_node (t : tree) : bool :=
  match t with
  | NT ty _ => one_of ty ["TIME_OFFSET"; "SPACE_INT_PROP"; "INTERVAL_PROPERTY"]
  | Leaf x => match dat x with N_CMAVO s _ _ => existsb (tok_eqb s) [T_ZAhO; T_VA; T_FAhA; T_BAI; T_PU] | _ => false end
  end.

(* prop_tense_ctx(x, YES)->ctx = c *)
Definition twrite : Type := path * tense_ctx.

(* tenses.c:147-201 scan_tenses, tense_processing *)
Fixpoint scan_tenses (anc : ancestors) (p : path) (x : tree) : outcome (list twrite) :=
  do here <- (if tense_node x then check_tense_context anc else Ok None);
  let w := match here with Some c => [(p, c)] | None => [] end in
  match x with
  | Leaf _ => Ok w
  | NT ty ch =>
      let anc := enter p ty ch anc in
      do r <- (fix go (i : nat) (l : list tree) : outcome (list twrite) :=
                 match l with
                 | [] => Ok []
                 | c :: l =>
                     do u <- scan_tenses anc (p ++ [i]) c;
                     do v <- go (S i) l;
                     Ok (u ++ v)
                 end) 0 ch;
      Ok (w ++ r)
  end.
Definition tense_processing (top : tree) : outcome (list twrite) := scan_tenses [] [] top.

(* properties set by relative.c: prop_dont_gloss, prop_antecedent, prop_require_brac,
   prop_rel_clause_link, prop_contains_keha *)
Inductive rel_prop : Type :=
| DontGloss | Antecedent (q : path) | RequireBrac | RelLink (q : path) | ContainsKeha.
Definition rwrite : Type := path * rel_prop.

(* functions.c:555-597 find_nth_cmavo_child(x, 1, s): the path of the node found *)
Fixpoint first_cmavo (i : nat) (ch : list tree) (s : tok) : option nat :=
  match ch with
  | [] => None
  | c :: ch => if is_cm s c then Some i else first_cmavo (S i) ch s
  end.
Fixpoint cmavo_child (i : nat) (ch : list tree) (s : tok) : option path :=
  match ch with
  | [] => None
  | Leaf x :: ch => if cmtest x s then Some [i] else cmavo_child (S i) ch s
  | NT ty cc :: ch =>
      match (if String.eqb ty "AUGMENTED" then first_cmavo 0 cc s else None) with
      | Some j => Some [i; j]
      | None => cmavo_child (S i) ch s
      end
  end.

(* relative.c:25-79 process_goi_clause *)
Definition process_goi_clause (p : path) (ch : list tree) : outcome (list rwrite) :=
  match cmavo_child 0 ch T_GOI, find_nth_child 0 ch 1 "TERM" with
  | Some g, Some i =>
      match nth_error ch i with
      | Some (NT _ (NT ty _ :: _)) =>
          if one_of ty ["TERM_TAGGED_SUMTI"; "TAGGED_TERMSET"] then Ok [(p ++ g, DontGloss)] else Ok []
      | Some (NT _ (Leaf _ :: _)) => UB UB_other
      | _ => Abort
      end
  | _, _ => Abort
  end.

(* relative.c:109-113: up to the RELATIVE_CLAUSES; its ancestors *)
Fixpoint up_to_clauses (anc : ancestors) : outcome ancestors :=
  match anc with
  | [] => UB UB_null
  | (_, ty, _) :: up => if String.eqb ty "RELATIVE_CLAUSES" then Ok up else up_to_clauses up
  end.
(* child_ref(encl, 0) *)
Definition first_child (q : path) (ch : list tree) : outcome (option path) :=
  match ch with [] => Abort | _ => Ok (Some (q ++ [0])) end.
(* relative.c:115-165 *)
Definition antecedent_in (q : path) (ty : string) (ch : list tree) : outcome (option path) :=
  if String.eqb ty "FRAGMENT" then Ok None
  else if one_of ty ["SUMTI"; "SUMTI_5"; "SUMTI_TAIL_1"] then first_child q ch
  else if one_of ty ["LAHE_SUMTI_6"; "NAHE_BO_SUMTI_6"] then
    Ok (option_map (fun i => q ++ [i]) (find_nth_child 0 ch 1 "SUMTI"))
  else if one_of ty ["NAME_SUMTI_6"; "FREE_VOCATIVE"] then Ok (Some q)
  else if String.eqb ty "SUMTI_TAIL" then Ok (option_map (fun i => q ++ [i]) (find_nth_child 0 ch 1 "SUMTI_6"))
  else Ok None (* with a message on standard error *).
(* relative.c:102-180 process_any_rel_clause *)
Definition process_any_rel_clause (anc : ancestors) (p : path) : outcome (list rwrite) :=
  do up <- up_to_clauses anc;
  match up with
  | [] => UB UB_null
  | (q, ty, ch) :: _ =>
      do a <- antecedent_in q ty ch;
      Ok (match a with Some a => [(p, Antecedent a); (a, RequireBrac)] | None => [] end)
  end.

(* relative.c:189-212 process_keha *)
Fixpoint process_keha (anc : ancestors) (p : path) : outcome (list rwrite) :=
  match anc with
  | [] => UB UB_null
  | (q, ty, _) :: up =>
      if String.eqb ty "RELATIVE_CLAUSE" then Ok [(p, RelLink q); (q, ContainsKeha)]
      else if String.eqb ty "CHUNKS" then Ok []
      else process_keha up p
  end.

(* x->type == N_CMAVO and its text is ke'a *)
Definition is_keha (x : node) : bool :=
  match dat x with N_CMAVO _ c _ => String.eqb (cmavo_word c) "ke'a" | _ => false end.

(* relative.c:240-277 relative_clause_processing *)
Fixpoint relative_scan (anc : ancestors) (p : path) (x : tree) : outcome (list rwrite) :=
  match x with
  | Leaf n => if is_keha n then process_keha anc p else Ok []
  | NT ty ch =>
      let inner := enter p ty ch anc in
      do r <- (fix go (i : nat) (l : list tree) : outcome (list rwrite) :=
                 match l with
                 | [] => Ok []
                 | c :: l =>
                     do u <- relative_scan inner (p ++ [i]) c;
                     do v <- go (S i) l;
                     Ok (u ++ v)
                 end) 0 ch;
      do a <- (if String.eqb ty "RELATIVE_CLAUSE" then process_any_rel_clause anc p else Ok []);
      do g <- (if String.eqb ty "TERM_RELATIVE_CLAUSE" then process_goi_clause p ch else Ok []);
      Ok (r ++ a ++ g)
  end.
Definition relative_clause_processing (top : tree) : outcome (list rwrite) := relative_scan [] [] top.

(* errorscan.c:19-50 error_scan: the FRAGMENT nodes for which a warning is printed, in
   order.  The position printed is that of the node and not modelled. *)
Fixpoint error_scan (p : path) (x : tree) : outcome (list path) :=
  match x with
  | Leaf _ => Ok []
  | NT ty ch =>
      do r <- (fix go (i : nat) (l : list tree) : outcome (list path) :=
                 match l with
                 | [] => Ok []
                 | c :: l => do u <- error_scan (p ++ [i]) c; do v <- go (S i) l; Ok (u ++ v)
                 end) 0 ch;
      if String.eqb ty "FRAGMENT" then
        match ch with
        | [] => Abort
        | c :: _ => Ok (r ++ if is_nt "TERMS" c then [p] else [])
        end
      else Ok r
  end.
