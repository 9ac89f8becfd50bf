(* Specifications for tree.c: words, attachments, levels, brackets, indents. *)
From Coq Require Import String Ascii List NArith Bool Arith.
From Verif Require Import Base TokData CmavoData TokModel ErasureSpec Lex2Spec TreeModel TreeOutModel.
Import ListNotations.
Open Scope string_scope.
Open Scope list_scope.

(* the terminals from left to right *)
Fixpoint leaves (t : tree) : list node :=
  match t with Leaf x => [x] | NT _ ch => flat_map leaves ch end.

(* a node by itself *)
Definition alone (n : node) : node :=
  match n with Node d l c _ g k _ => Node d l c None g k [] end.

(* everything attached to a node, in text order: the emphasis words in front,
   itself, the indicators behind with what is attached to them *)
Fixpoint attached (n : node) : list node :=
  match n with
  | Node d l c b g k u =>
      match b with None => [] | Some z => attached z end ++ alone n :: flat_map attached u
  end.

(* emphasis words carry no indicators *)
Inductive tidy : node -> Prop :=
| tidy_intro n : (forall z, bahe n = Some z -> ui z = [] /\ tidy z) -> Forall tidy (ui n) -> tidy n.

(* nothing attached *)
Definition unattached (n : node) : Prop := bahe n = None /\ ui n = [].

(* ---- removing levels ---- *)

(* u is t with some levels of a single child removed *)
Inductive shrinks : tree -> tree -> Prop :=
| sh_leaf x : shrinks (Leaf x) (Leaf x)
| sh_level ty c u : shrinks c u -> shrinks (NT ty [c]) u
| sh_node ty ch us : Forall2 shrinks ch us -> shrinks (NT ty ch) (NT ty us).

(* no level of a single child at all *)
Inductive tight : tree -> Prop :=
| ti_leaf x : tight (Leaf x)
| ti_node ty ch : List.length ch <> 1 -> Forall tight ch -> tight (NT ty ch).

(* ---- brackets ---- *)

(* what a word looks like in writing *)
Definition written (elidable : bool) (n : node) : string :=
  match dat n with
  | N_CMAVO _ code _ =>
      if elidable then make_uppercase (cmavo_word code)
      else spaced (cmavo_word code :: nai_words (neg n) ++ cai_words (cai n))
  | N_ZOI form term text => spaced [form; term; text; term]
  | N_ZO t => spaced ["zo"; t]
  | N_LOhU t => spaced ["lo'u"; t; "le'u"]
  | N_ZEI _ _ z => z
  | N_BU w => spaced [w; "bu"]
  | N_BRIVLA w _ => w
  | N_CMENE w => w
  | _ => ""
  end.

(* brackets around every constituent, and around lo'u and zei *)
Fixpoint bracketed (elidable : node -> bool) (d : nat) (t : tree) : list piece :=
  match t with
  | NT _ ch => Open d :: flat_map (bracketed elidable (S d)) ch ++ [Close d]
  | Leaf x =>
      match dat x with
      | N_MARKER _ | N_GARBAGE _ | N_BROKEN_ERASURE _ => []
      | N_LOhU _ | N_ZEI _ _ _ => [Open (S d); Text (written (elidable x) x); Close (S d)]
      | _ => [Text (written (elidable x) x)]
      end
  end.

Definition visible (p : piece) : bool :=
  match p with Open _ | Close _ | Text _ => true | _ => false end.

(* every bracket has its partner of the same kind *)
Inductive balanced : list piece -> Prop :=
| bl_nil : balanced []
| bl_flat p l : (forall d, p <> Open d /\ p <> Close d) -> balanced l -> balanced (p :: l)
| bl_nest d a b : balanced a -> balanced b -> balanced (Open d :: a ++ Close d :: b).

(* the words for which the writing is the one of the text *)
Definition faithful (elidable : node -> bool) (n : node) : Prop :=
  match dat n with
  | N_CMAVO _ code _ =>
      elidable n = true \/
      (cmavo_selmao code = Some T_UI /\ cai n <> Some CC_PEINAI) \/
      (cmavo_selmao code = Some T_CAI /\ cai n = None) \/
      (neg n = false /\ cai n = None)
  | N_ZOI form _ _ => form = "zoi"
  | _ => True
  end.

(* ---- indented tree ---- *)

Inductive sk : Type := SK (label : string) (ch : list sk).
Section SKEL.
  Variable elidable : node -> bool.
  Variable selmao_name : N -> string.
  Definition entry (w class : string) : string := ("CMAVO : " ++ w ++ " [" ++ class ++ "]")%string.
  (* the lines of one terminal: a word of UI is followed by the nai and the
     intensity merged into it *)
  Definition entries (x : node) : list string :=
    match dat x with
    | N_MARKER _ => []
    | N_CMAVO _ code _ =>
        if elidable x then [entry (make_uppercase (cmavo_word code)) (selmao_name code)]
        else entry (cmavo_word code) (selmao_name code) ::
          match cmavo_selmao code with
          | Some T_UI => map (fun w => entry w (if String.eqb w "nai" then "NAI" else "CAI"))
                           (nai_words (neg x) ++ cai_words (cai x))
          | _ => []
          end
    | N_ZOI _ _ t => [("ZOI : " ++ t)%string]
    | N_ZO t => [("ZO  : " ++ t)%string]
    | N_LOhU t => [("LOhU  : " ++ t)%string]
    | N_ZEI _ _ z => [("ZEI : " ++ z)%string]
    | N_BU w => [("BU : " ++ w)%string]
    | N_BRIVLA w _ => [("BRIVLA : " ++ w)%string]
    | N_CMENE w => [("CMENE : " ++ w)%string]
    | _ => ["OTHER?"]
    end.
  (* the lines of the tree as a tree: every word is a line of its own *)
  Fixpoint skeleton (t : tree) : list sk :=
    match t with
    | Leaf x => map (fun l => SK l []) (entries x)
    | NT ty ch => [SK ty (flat_map skeleton ch)]
    end.
End SKEL.
Definition no_cai_nai (n : node) : Prop :=
  match dat n with N_CMAVO _ code _ => cmavo_selmao code = Some T_CAI -> neg n = false | _ => True end.

(* the picture of a tree: constituents above their heading, one branch per level *)
Definition nl : string := String (ascii_of_nat 10) "".
Definition branch (i : nat) : string :=
  match i with O => "" | S k => (String.concat "" (repeat "| " k) ++ "+-")%string end.
Fixpoint drawn (i : nat) (t : sk) : string :=
  match t with SK l ch => (String.concat "" (map (drawn (S i)) ch) ++ branch i ++ l ++ nl)%string end.

(* a label that keeps to its line and is not mistaken for a branch *)
Definition plain_label (s : string) : Prop :=
  ~ In (ascii_of_nat 10) (list_ascii_of_string s) /\
  match s with String c _ => c <> "+"%char /\ c <> "|"%char | EmptyString => True end.
Inductive plain_sk : sk -> Prop :=
| ps_intro l ch : plain_label l -> Forall plain_sk ch -> plain_sk (SK l ch).
