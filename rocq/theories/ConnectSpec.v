(* What a logical connective means, and what its displayed truth table should be. *)
From Coq Require Import String Ascii List NArith Bool Arith.
From Verif Require Import Base TokData CmavoData TokModel TreeModel.
Import ListNotations.
Open Scope string_scope.
Open Scope list_scope.

(* the last vowel of a logical connective names its function: a is or, e is and,
   o is if-and-only-if, u is "whether or not", i asks for the connective *)
Inductive meaning : Type := Fun (f : bool -> bool -> bool) | Question.
Fixpoint last_char (s : string) : ascii :=
  match s with
  | EmptyString => "000"%char
  | String c EmptyString => c
  | String _ s => last_char s
  end.
Definition vowel_meaning (w : string) : option meaning :=
  match last_char w with
  | "a"%char => Some (Fun orb)
  | "e"%char => Some (Fun andb)
  | "o"%char => Some (Fun Bool.eqb)
  | "u"%char => Some (Fun (fun p _ => p))
  | "i"%char => Some Question
  | _ => None
  end.

(* se exchanges the two sides, a negation applies to the side it stands at *)
Definition composed (neg1 conv neg2 : bool) (f : bool -> bool -> bool) (p q : bool) : bool :=
  let p := xorb neg1 p in
  let q := xorb neg2 q in
  if conv then f q p else f p q.

(* the four rows, in the order TT TF FT FF *)
Definition table (f : bool -> bool -> bool) : string :=
  String.concat "" (map (fun pq => if f (fst pq) (snd pq) then "T" else "F")
    [(true, true); (true, false); (false, true); (false, false)]).
Definition shown (neg1 conv neg2 : bool) (m : meaning) : string :=
  match m with Fun f => table (composed neg1 conv neg2 f) | Question => "QQQQ" end.

(* the cmavo directly below a node, or below it with indicators attached *)
Inductive has_word (s : tok) (ch : list tree) : node -> Prop :=
| hw_child x : In (Leaf x) ch -> cmtest x s = true -> has_word s ch x
| hw_augmented cc x : In (NT "AUGMENTED" cc) ch -> In (Leaf x) cc -> cmtest x s = true -> has_word s ch x.
Definition present (s : tok) (ch : list tree) (b : bool) : Prop :=
  if b then exists x, has_word s ch x else forall x, ~ has_word s ch x.

(* [x] is a word of selma'o [s] as it comes from the cmavo table *)
Definition table_word (s : tok) (x : node) : Prop :=
  exists c f, dat x = N_CMAVO s c f /\ cmavo_selmao c = Some s.
(* the connective word of the node: all words of the selma'o in it mean [m] *)
Definition core_word (s : tok) (ch : list tree) (m : meaning) : Prop :=
  (exists x, has_word s ch x) /\
  forall x, has_word s ch x -> table_word s x /\ vowel_meaning (text_of x) = Some m.

(* nonterminals with an afterthought, and with a forethought connective *)
Definition afterthought : list (string * tok) :=
  [("GIHEK", T_GIhA); ("EK", T_A); ("JEK", T_JA); ("JEK_OPT_KE", T_JA); ("JEK_OPT_KEBO", T_JA)].
Definition forethought : list (string * tok) := [("GUHEK", T_GUhA); ("GEK", T_GA)].

(* the gik of a node is its first child of that type *)
Definition gik_child (ch : list tree) (j : nat) (gch : list tree) : Prop :=
  nth_error ch j = Some (NT "GIK" gch) /\
  forall i c, (i < j)%nat -> nth_error ch i = Some c -> is_nt "GIK" c = false.

(* the first child of a type *)
Definition first_nt (ty : string) (ch : list tree) (j : nat) (gch : list tree) : Prop :=
  nth_error ch j = Some (NT ty gch) /\
  forall i c, (i < j)%nat -> nth_error ch i = Some c -> is_nt ty c = false.

Definition is_forethought (t : tree) : bool := is_nt "GUHEK" t || is_nt "GEK" t.

(* what the grammar guarantees at every node *)
Definition regular_node (pch : option (list tree)) (ty : string) (ch : list tree) : Prop :=
  (forall s, In (ty, s) afterthought -> exists x, has_word s ch x) /\
  (ty = "GUHEK" -> exists x, has_word T_GUhA ch x) /\
  (ty = "GUHEK" \/ ty = "GEK" -> exists pch' j gch, pch = Some pch' /\ gik_child pch' j gch) /\
  (ty = "GEK" -> (exists x, has_word T_GA ch x) \/
     ((exists x, has_word T_GI ch x) /\ exists j gch, nth_error ch j = Some (NT "JOIK" gch)) \/
     ((forall x, ~ has_word T_GI ch x) /\ (exists j gch, nth_error ch j = Some (NT "GIK" gch)) /\
      (exists j gch, nth_error ch j = Some (NT "STAG" gch)))).
Definition regular (top : tree) : Prop :=
  (forall ty ch, subtree top [] = Some (NT ty ch) -> regular_node None ty ch) /\
  (forall p i pty pch ty ch, subtree top p = Some (NT pty pch) ->
     nth_error pch i = Some (NT ty ch) -> regular_node (Some pch) ty ch).
