(* What conversions do to the places of a selbri. *)
From Coq Require Import String List NArith Bool Arith.
From Verif Require Import Base TokData CmavoData TokModel TreeModel.
Import ListNotations.
Open Scope string_scope.
Open Scope list_scope.

(* the conversion words: each exchanges the first place with another; jai puts a
   new first place in front and moves the old one out of the numbered places *)
Inductive op : Set := Se (p : nat) | Jai.
Definition transpose (a b k : nat) : nat := if Nat.eqb k a then b else if Nat.eqb k b then a else k.

(* [Some j]: place k of the construction is place j of the core word; [None]: it is
   the place jai adds.  The outermost operator comes first. *)
Fixpoint place (ops : list op) (k : nat) : option nat :=
  match ops with
  | [] => Some k
  | Se p :: inner => place inner (transpose 1 p k)
  | Jai :: inner => if Nat.eqb k 1 then None else place inner k
  end.

(* the places exchanged by the words of selma'o SE *)
Definition se_words : list (string * nat) := [("se", 2); ("te", 3); ("ve", 4); ("xe", 5)].

(* the conversion word of a node: its first constituent, which may be emphasised
   or carry indicators *)
Inductive converts (p : path) (ch : list tree) (n : nat) : path -> Prop :=
| cv_word x w rest : ch = Leaf x :: rest -> cmtest x T_SE = true -> text_of x = w -> In (w, n) se_words ->
    converts p ch n (p ++ [0])
| cv_augmented bs x cc w rest : ch = NT "AUGMENTED" (map Leaf bs ++ Leaf x :: cc) :: rest ->
    forallb (fun b => cmtest b T_BAhE) bs = true ->
    cmtest x T_SE = true -> text_of x = w -> In (w, n) se_words -> converts p ch n (p ++ [0; List.length bs]).

(* the conversions that apply to a word: the chain of constituents around it up
   to the end of its tanru unit; innermost first *)
Definition transparent (ty : string) : Prop :=
  In ty ["TANRU_UNIT_2"; "NAHE_TU2"; "TANRU_UNIT_1"; "TANRU_UNIT"; "SELBRI_6"; "SELBRI_5"; "SELBRI_3";
         "KE_SELBRI_3"; "KE_SELBRI3_TU2"].
(* a tanru component: it is a part of a sequence of components *)
Definition component (up : list (path * string * list tree)) : Prop :=
  exists p1 c1 p2 c2 r, up = (p1, "SELBRI_3", c1) :: (p2, "SELBRI_3", c2) :: r.
Inductive conversions : list (path * string * list tree) -> list op -> list path -> Prop :=
| cs_se p ch n q up ops qs : converts p ch n q -> conversions up ops qs ->
    conversions ((p, "SE_TU2", ch) :: up) (Se n :: ops) (q :: qs)
| cs_jai p ty ch up ops qs : ty = "JAI_TU2" \/ ty = "JAI_TAG_TU2" -> conversions up ops qs ->
    conversions ((p, ty, ch) :: up) (Jai :: ops) qs
| cs_transparent p ty ch up ops qs : transparent ty -> conversions up ops qs ->
    conversions ((p, ty, ch) :: up) ops qs
| cs_component p ch up : component up -> conversions ((p, "SELBRI_4", ch) :: up) [] []
| cs_whole p ch p1 t1 c1 p2 t2 c2 up ops qs : ~ component ((p1, t1, c1) :: (p2, t2, c2) :: up) ->
    conversions ((p1, t1, c1) :: (p2, t2, c2) :: up) ops qs ->
    conversions ((p, "SELBRI_4", ch) :: (p1, t1, c1) :: (p2, t2, c2) :: up) ops qs
| cs_end p ch up : conversions ((p, "SELBRI_2", ch) :: up) [] [].

(* the ancestors of the word at a path, nearest first; the node that ties a word
   to its indicators is not one *)
Inductive ancestors : tree -> path -> path -> list (path * string * list tree) -> Prop :=
| an_here t p : ancestors t p [] []
| an_child ty ch i c p q l l' : nth_error ch i = Some c -> ancestors c (p ++ [i]) q l ->
    l' = (if String.eqb ty "AUGMENTED" then l else l ++ [(p, ty, ch)]) ->
    ancestors (NT ty ch) p (i :: q) l'.

(* the number used for a place: 0 stands for the place jai adds *)
Definition enc (o : option nat) : nat := match o with Some j => j | None => 0 end.

Definition brivla (x : node) : Prop := exists w ty, dat x = N_BRIVLA w ty.

(* the words to which the scan applies have their conversions *)
Definition placed (top : tree) : Prop :=
  forall p x anc, subtree top p = Some (Leaf x) -> ancestors top [] p anc ->
    (brivla x -> exists ops qs, conversions anc ops qs) /\
    (cmtest x T_NU = true -> exists a b ch p' ops qs, anc = a ++ (p', "TANRU_UNIT_2", ch) :: b /\
       Forall (fun c => snd (fst c) <> "TANRU_UNIT_2") a /\ conversions ((p', "TANRU_UNIT_2", ch) :: b) ops qs).

(* nodes reached by the BAI scan: no SE_BAI or BAI1 above *)
Inductive bai_reach : tree -> path -> tree -> Prop :=
| br_here t : bai_reach t [] t
| br_child ty ch i c q u : ty <> "SE_BAI" -> ty <> "BAI1" -> nth_error ch i = Some c -> bai_reach c q u ->
    bai_reach (NT ty ch) (i :: q) u.
