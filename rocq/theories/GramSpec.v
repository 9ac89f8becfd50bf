(* Parse trees after expand_bahe_ui, and places in trees. *)
From Coq Require Import String List NArith Bool Arith.
From Verif Require Import Base TokData TokModel StreamModel TreeModel GrammarData GramModel.
Import ListNotations.
Open Scope string_scope.
Open Scope list_scope.

(* the kinds of the nodes around the node at a path, from the inside out.  The nodes that
   only hold a word with its emphasis and indicators are left out. *)
Fixpoint around (t : tree) (p : path) : list string :=
  match p, t with
  | i :: p, NT ty ch =>
      match nth_error ch i with
      | Some c => around c p ++ (if String.eqb ty "AUGMENTED" then [] else [ty])
      | None => []
      end
  | _, _ => []
  end.

(* emphasis or an indicator, with what is attached to it *)
Fixpoint ornament (t : tree) : Prop :=
  match t with
  | Leaf x => attachable x = true
  | NT ty ch =>
      ty = "AUGMENTED" /\
      (fix all (l : list tree) : Prop := match l with [] => True | c :: l => ornament c /\ all l end) ch
  end.

(* a word of a selma'o, alone or with emphasis and indicators *)
Inductive wordlike (t : tok) : tree -> Prop :=
| wl_bare x : is_word t x -> wordlike t (Leaf x)
| wl_augmented bs x us : forallb (fun b => cmtest b T_BAhE) bs = true -> is_word t x -> Forall ornament us ->
    wordlike t (NT "AUGMENTED" (map Leaf bs ++ Leaf x :: us)).

(* the children of a node that comes from a production *)
Inductive fitsx : list sym -> list tree -> Prop :=
| fx_nil : fitsx [] []
| fx_node ty ss ch cs : fitsx ss cs -> fitsx (SN ty :: ss) (NT ty ch :: cs)
| fx_word t x ss cs : wordlike t x -> fitsx ss cs -> fitsx (ST t :: ss) (x :: cs)
| fx_left_out t ss cs : fitsx ss cs -> fitsx (SE t :: ss) cs
| fx_supplied t x ss cs : wordlike t x -> fitsx ss cs -> fitsx (SE t :: ss) (x :: cs).

(* a subtree of a parse tree.  What is inside an AUGMENTED node is told by [wordlike] *)
Fixpoint parsed (t : tree) : Prop :=
  match t with
  | Leaf _ => True
  | NT ty ch =>
      ty = "AUGMENTED" \/
      (exists ss, In ss (alternatives ty) /\ fitsx ss ch) /\
      (fix all (l : list tree) : Prop := match l with [] => True | c :: l => parsed c /\ all l end) ch
  end.
