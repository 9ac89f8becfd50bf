(* When the tables of the walk over the terms suffice (terms.c). *)
From Coq Require Import String List Bool Arith.
From Verif Require Import TreeModel TermsModel TermsSpec WalkSpec OutModel.
Import ListNotations.
Open Scope string_scope.
Open Scope list_scope.

(* a vector of terms or of links holds twenty: terms.c:22, 51, 84 *)
Definition held {A} (l : list A) : Prop := List.length l <= 20.

(* parts of a bridi joined with ke ... ke'e have terms of their own after them *)
Definition tailed (ch : list tree) : Prop :=
  exists i j dd ee, nth_error ch i = Some (NT "TAIL_TERMS" dd) /\ nth_error dd j = Some (NT "TERMS" ee).

(* the terms of every bridi, of every be ... bei ... be'o, and what is met on the way down to
   a selbri are at most twenty, and no place beyond the nineteenth is given *)
Definition roomy (T : tree) : Prop :=
  (forall p, held (before T p) /\ held (after T p)) /\
  (forall p c la, subtree T p = Some (NT "TANRU_UNIT_1" [c; la]) -> held (sorts (terms_in (p ++ [1]) la))) /\
  (forall s a q pre post lc, source T s a -> down T s a q (pre, post, lc) -> held lc /\
     forall mk conv out, names T q mk conv -> observed pre post (map fst lc) out -> fits out /\ List.length (filter is_jai (map fst lc)) <= 19) /\
  (forall p ch, subtree T p = Some (NT "BRIDI_TAIL" ch) -> List.length ch <> 1 -> tailed ch).

(* the same in plain counts *)
Definition linked_terms (e : link_conv) : nat := match e with LC_LINKS v => List.length v | _ => 0 end.
Definition modest (T : tree) : Prop :=
  (forall p, held (before T p) /\ held (after T p)) /\
  (forall p c la, subtree T p = Some (NT "TANRU_UNIT_1" [c; la]) -> held (sorts (terms_in (p ++ [1]) la))) /\
  (forall s a q pre post lc, source T s a -> down T s a q (pre, post, lc) ->
     List.length lc <= 19 /\ List.length pre + List.length post + list_sum (map linked_terms (map fst lc)) <= 14) /\
  (forall p ch, subtree T p = Some (NT "BRIDI_TAIL" ch) -> List.length ch <> 1 -> tailed ch).

(* the same over the whole text, to be counted without following any bridi *)
Fixpoint tally (f : string -> list tree -> bool) (x : tree) : nat :=
  match x with Leaf _ => 0 | NT k ch => (if f k ch then 1 else 0) + list_sum (map (tally f) ch) end.
Definition a_term (k : string) (ch : list tree) : bool := String.eqb k "TERM".
(* a selbri with be, se or jai *)
Definition a_layer (k : string) (ch : list tree) : bool :=
  among k ["SE_TU2"; "JAI_TU2"; "JAI_TAG_TU2"] || String.eqb k "TANRU_UNIT_1" && Nat.eqb (List.length ch) 2.
Definition bare_tail (k : string) (ch : list tree) : bool :=
  String.eqb k "BRIDI_TAIL" && negb (Nat.eqb (List.length ch) 1) &&
  negb (existsb (fun c => match c with NT k' dd => String.eqb k' "TAIL_TERMS" && existsb (is_nt "TERMS") dd | Leaf _ => false end) ch).
Definition short_text (T : tree) : Prop := tally a_term T <= 14 /\ tally a_layer T <= 19 /\ tally bare_tail T = 0.

(* the properties of the nodes but for the labels *)
Definition unlabelled (P : props) : props :=
  Props (p_eols P) (p_elidable P) (p_conversion P) (p_bai_conversion P) (p_tense_ctx P) (p_glosstype P) (p_dont_gloss P) (p_connective P)
    (fun _ => []) (p_rel_clause_link P) (p_antecedent P).
