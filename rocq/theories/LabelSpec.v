(* What the label of a term shows. *)
From Coq Require Import String Ascii List NArith ZArith Bool Arith.
From Verif Require Import Base TokData CmavoData TokModel TreeModel OutModel OutSpec.
From Verif Require TransModel.
Import TransModel(zdec).
Import ListNotations.
Open Scope string_scope.
Open Scope list_scope.

Section SHOWN.
  Variable adv_translate : string -> Z -> TransModel.tctx -> outcome string.
  (* the tree with the numbers of brackets *)
  Variable top : atree.
  Let T := bare top.

  Definition decimal (n : nat) : string := zdec (Z.of_nat n).
  (* a translation with the number put in *)
  Definition numbered (e : string) (n : nat) (s : string) : Prop := forall s', template e n s' -> s = s'.

  (* The word with the number of the place, and the translation for that place; what is not a
     word is named by the number of its brackets. *)
  Inductive label_shown : term_tag -> list call -> Prop :=
  | ls_brivla q x w ty pos e : subtree T q = Some (Leaf x) -> dat x = N_BRIVLA w ty -> adv_translate w pos TransModel.TCX_TAG = Ok e ->
      label_shown (TTT_BRIVLA q pos) [StartTag; TagText w (zdec pos) e true]
  | ls_nu q x s c f pos e : subtree T q = Some (Leaf x) -> dat x = N_CMAVO s c f -> adv_translate (cmavo_word c) pos TransModel.TCX_TAG = Ok e ->
      label_shown (TTT_ABSTRACTION q pos) [StartTag; TagText (cmavo_word c) (zdec pos) e true]
  | ls_goha q x s c f pos : subtree T q = Some (Leaf x) -> dat x = N_CMAVO s c f ->
      label_shown (TTT_GOhA q pos) [StartTag; TagText (cmavo_word c ++ zdec pos) "" "" true]
  | ls_zei q x b n ys plus z pos e : asub top q = Some (ALeaf x b n) -> dat x = N_ZEI ys plus z -> adv_translate plus pos TransModel.TCX_TAG = Ok e ->
      label_shown (TTT_ZEI q pos) [StartTag; TagText ("#" ++ decimal n ++ "-" ++ zdec pos) "" e true]
  | ls_me q n pos e s : number top q = Some n -> adv_translate "me" pos TransModel.TCX_TAG = Ok e -> numbered e n s ->
      label_shown (TTT_ME q pos) [StartTag; TagText "me" (zdec pos ++ "..") s true]
  | ls_moi q n r x k c f pos e s : number top q = Some n -> subtree T r = Some (Leaf x) -> dat x = N_CMAVO k c f ->
      adv_translate (cmavo_word c) pos TransModel.TCX_TAG = Ok e -> numbered e n s ->
      label_shown (TTT_NUMBERMOI q r pos) [StartTag; TagText ("#" ++ decimal n ++ "-" ++ cmavo_word c ++ zdec pos) "" s true]
  | ls_nuha q n pos : number top q = Some n -> label_shown (TTT_NUhA q pos) [StartTag; TagText ("#" ++ decimal n ++ "-" ++ zdec pos) "" "" true]
  | ls_jai tag tu2 n pos r : number top tu2 = Some n -> forallb label_call r = true ->
      label_shown (TTT_JAITAG tag tu2 pos) (StartTag :: Partial "jai+<tag>1: (" :: r ++ [Partial ("#" ++ decimal n ++ ")")]).

  Definition all_labels (ls : list (list call)) : list call :=
    match ls with [] => [] | _ => StartTags :: concat ls ++ [EndTags] end.
End SHOWN.

(* what a label names by a number *)
Inductive by_number : term_tag -> path -> Prop :=
| bn_me q n : by_number (TTT_ME q n) q
| bn_nuha q n : by_number (TTT_NUhA q n) q
| bn_jai r q n : by_number (TTT_JAITAG r q n) q.
(* the words whose places may be named *)
Inductive place_word (t : tree) : string -> Prop :=
| pw_me : place_word t "me"
| pw_brivla q x w ty : subtree t q = Some (Leaf x) -> dat x = N_BRIVLA w ty -> place_word t w
| pw_zei q x ys w z : subtree t q = Some (Leaf x) -> dat x = N_ZEI ys w z -> place_word t w
| pw_cmavo q x s c f : subtree t q = Some (Leaf x) -> dat x = N_CMAVO s c f -> place_word t (cmavo_word c).
Definition few_digits (n : nat) : Prop := (N.of_nat (String.length (zdec (Z.of_nat n))) <= 100)%N.
(* a dictionary in which all places of these words have a short translation *)
Definition complete_places (adv_translate : string -> Z -> TransModel.tctx -> outcome string) (t : tree) : Prop :=
  forall w n, place_word t w -> (1 <= n <= 19)%Z ->
    exists e, adv_translate w n TransModel.TCX_TAG = Ok e /\ forall k, few_digits k -> exists s, template e k s /\ short s.
