(* Parse trees and the functions that look things up in them (functions.c). *)
From Coq Require Import String List NArith Bool Arith.
From Verif Require Import Base TokData CmavoData TokModel.
Import ListNotations.
Open Scope string_scope.
Open Scope list_scope.

(* nodes.h:106-112 (struct nonterm) and struct treenode after parsing.  A leaf is
   a token node.  Nonterminal types (the generated nonterm.h) are represented by
   their names in rpc2x.y.  Left out: number, brackets and the parent pointer; the
   parent is the node whose child list holds the node (mark_children,
   functions.c:24-49). *)
Inductive tree : Type :=
| Leaf (x : node)
| NT (ty : string) (ch : list tree).

(* a node is identified by its path: the child numbers from the root *)
Definition path := list nat.

(* the node at a path *)
Fixpoint subtree (t : tree) (p : path) : option tree :=
  match p with
  | [] => Some t
  | i :: p =>
      match t with
      | Leaf _ => None
      | NT _ ch => match nth_error ch i with Some c => subtree c p | None => None end
      end
  end.

(* x->type == N_NONTERM && x->data.nonterm.type == ty *)
Definition is_nt (ty : string) (t : tree) : bool :=
  match t with NT s _ => String.eqb s ty | Leaf _ => false end.

(* x->type == N_CMAVO && x->data.cmavo.selmao == s *)
Definition is_cm (s : tok) (t : tree) : bool :=
  match t with Leaf x => cmtest x s | NT _ _ => false end.

(* functions.c:512-535 find_nth_child: index of the n-th child of the type *)
Fixpoint find_nth_child (i : nat) (ch : list tree) (n : nat) (ty : string) : option nat :=
  match ch with
  | [] => None
  | c :: ch =>
      if is_nt ty c then
        match n with
        | 1 => Some i
        | _ => find_nth_child (S i) ch (n - 1) ty
        end
      else find_nth_child (S i) ch n ty
  end.

(* functions.c:555-597 find_nth_cmavo_child: the two nested loops visit the
   children, and the children of AUGMENTED children, in order *)
Definition cmavo_candidates (ch : list tree) (s : tok) : list node :=
  flat_map (fun c =>
    match c with
    | Leaf x => if cmtest x s then [x] else []
    | NT ty cc =>
        if String.eqb ty "AUGMENTED" then
          flat_map (fun c => match c with Leaf x => if cmtest x s then [x] else [] | NT _ _ => [] end) cc
        else []
    end) ch.
Definition find_nth_cmavo_child (ch : list tree) (n : nat) (s : tok) : option node :=
  match n with O => None | S n => nth_error (cmavo_candidates ch s) n end.

(* functions.c:605-628 strip_attitudinal: the node found, with its path relative to
   the argument.  A terminal that is not a cmavo falls off the end of the function
   (undefined value); an AUGMENTED with nothing but BAhE fails the assertion. *)
Fixpoint skip_bahe (i : nat) (ch : list tree) : outcome (path * tree) :=
  match ch with
  | [] => Abort
  | c :: ch => if is_cm T_BAhE c then skip_bahe (S i) ch else Ok ([i], c)
  end.
Definition strip_attitudinal (t : tree) : outcome (path * tree) :=
  match t with
  | Leaf x => match dat x with N_CMAVO _ _ _ => Ok ([], t) | _ => UB UB_uninit end
  | NT ty ch =>
      if String.eqb ty "AUGMENTED" then
        match ch with [] => UB UB_bounds | _ => skip_bahe 0 ch end
      else Abort
  end.

(* functions.c:634-642 maybe_strip_attitudinal *)
Definition maybe_strip_attitudinal (t : tree) : outcome (path * tree) :=
  if is_nt "AUGMENTED" t then strip_attitudinal t else Ok ([], t).

(* cmavo_table[x->data.cmavo.code].cmavo *)
Definition text_of (x : node) : string :=
  match dat x with N_CMAVO _ c _ => cmavo_word c | _ => "" end.
