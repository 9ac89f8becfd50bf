(* Which terms belong to which bridi, which words head a selbri, and what the terms of a
   bridi are called. *)
From Coq Require Import String List NArith ZArith Bool Arith.
From Verif Require Import Base TokData CmavoData TokModel TreeModel ConvSpec TermsModel TermsSpec.
From Verif Require OutModel.
Import OutModel(term_tag, TTT_BRIVLA, TTT_JAITAG, TTT_ABSTRACTION, TTT_ME, TTT_NUMBERMOI, TTT_GOhA, TTT_NUhA, TTT_ZEI).
Import ListNotations.
Open Scope string_scope.
Open Scope list_scope.

Definition kind (t : tree) : string := match t with NT k _ => k | Leaf _ => "" end.
Definition among (k : string) (l : list string) : bool := existsb (String.eqb k) l.

(* ---------- words ---------- *)

(* the word of a node that is a word, alone or with emphasis before it and indicators after
   it; with the path from the node *)
Fixpoint unemphasised (i : nat) (ch : list tree) : option (path * node) :=
  match ch with
  | Leaf x :: ch => if cmtest x T_BAhE then unemphasised (S i) ch else Some ([i], x)
  | _ => None
  end.
Definition word (t : tree) : option (path * node) :=
  match t with
  | Leaf x => Some ([], x)
  | NT k ch => if String.eqb k "AUGMENTED" then unemphasised 0 ch else None
  end.
(* a node that is a word of a selma'o *)
Definition word_of (s : tok) (t : tree) (r : path) (x : node) : Prop :=
  word t = Some (r, x) /\ cmtest x s = true.

(* ---------- the terms of a bridi ---------- *)

(* the terms in a sequence of terms, of linked terms or of terms after a selbri.  Terms
   joined into one by pe'e or ce'e are not counted. *)
Fixpoint terms_in (p : path) (t : tree) : list (path * tree) :=
  match t with
  | Leaf _ => []
  | NT k ch =>
      if String.eqb k "TERM" then [(p, t)]
      else if among k ["TERMS"; "TAIL_TERMS"; "LINKARGS"; "LINKS"] ||
              among k ["TERMS_1"; "TERMS_2"] && Nat.eqb (List.length ch) 1 then
        (fix each (i : nat) (l : list tree) : list (path * tree) :=
           match l with [] => [] | c :: l => terms_in (p ++ [i]) c ++ each (S i) l end) 0 ch
      else []
  end.

(* the sort of a term: a sumti, a sumti with a word of FA, a sumti or a termset with a tag;
   others have no place *)
Definition fa_words : list (string * nat) :=
  [("fa", 1); ("fe", 2); ("fi", 3); ("fo", 4); ("fu", 5); ("fai", 101)].
Definition marked (p : path) (w : string) : list term :=
  if String.eqb w "fi'a" then [TRM_FAhI p]
  else flat_map (fun e => if String.eqb (fst e) w then [TRM_FA (snd e) p] else []) fa_words.
Definition sort (x : path * tree) : list term :=
  match snd x with
  | NT _ (NT k cc :: _) =>
      if String.eqb k "TERM_PLAIN_SUMTI" then [TRM_POS (fst x)]
      else if String.eqb k "TERM_PLACED_SUMTI" then
        match cc with
        | c :: _ => match word c with Some (_, n) => marked (fst x) (text_of n) | None => [] end
        | [] => []
        end
      else if among k ["TERM_TAGGED_SUMTI"; "TAGGED_TERMSET"] then [TRM_TAG (fst x)]
      else []
  | _ => []
  end.
Definition sorts (l : list (path * tree)) : list term := flat_map sort l.

(* the terms in the children of a kind *)
Fixpoint kid_terms (k : string) (p : path) (i : nat) (ch : list tree) : list (path * tree) :=
  match ch with
  | [] => []
  | c :: ch => (if String.eqb (kind c) k then terms_in (p ++ [i]) c else []) ++ kid_terms k p (S i) ch
  end.

(* the parts of a bridi, from the whole down to its selbri *)
Definition bridi_part (k : string) : bool :=
  among k ["SENTENCE"; "NO_CU_SENTENCE"; "OBSERVATIVE_SENTENCE"; "SUBSENTENCE"; "GEK_SENTENCE";
           "BRIDI_TAIL"; "BRIDI_TAIL_1"; "BRIDI_TAIL_2"; "BRIDI_TAIL_3"; "METALINGUISTIC"].
(* the terms before and after a selbri: those of all the parts around it, up to the whole
   bridi.  Those before it: the outermost first; those after it: the innermost first.
   The path is from the inside out. *)
Fixpoint before_r (T : tree) (r : path) : list (path * tree) :=
  match r with
  | [] => []
  | _ :: r =>
      match subtree T (rev r) with
      | Some (NT k ch) => if bridi_part k then before_r T r ++ kid_terms "TERMS" (rev r) 0 ch else []
      | _ => []
      end
  end.
Fixpoint after_r (T : tree) (r : path) : list (path * tree) :=
  match r with
  | [] => []
  | _ :: r =>
      match subtree T (rev r) with
      | Some (NT k ch) => if bridi_part k then kid_terms "TAIL_TERMS" (rev r) 0 ch ++ after_r T r else []
      | _ => []
      end
  end.
Definition before (T : tree) (p : path) : list term := sorts (before_r T (rev p)).
Definition after (T : tree) (p : path) : list term := sorts (after_r T (rev p)).

(* ---------- the heads of a selbri ---------- *)

(* what a head is given: the terms before, the terms after, and what has been met on the way
   down, the outermost first; with the node of a SE *)
Definition args : Type := (list term * list term * list (link_conv * path))%type.
Definition nothing : args := ([], [], []).

Definition kid (T : tree) (p : path) (k : string) (i : nat) (k' : string) : Prop :=
  exists ch cc, subtree T p = Some (NT k ch) /\ nth_error ch i = Some (NT k' cc).

(* The last of the components of a tanru is the head; each of the connected ones is. *)
Definition heads : list (string * string) :=
  [("SELBRI", "SELBRI_1"); ("SELBRI_1", "SELBRI_2"); ("SELBRI_1", "SELBRI");
   ("SELBRI_3", "SELBRI_4");
   ("SELBRI_4", "SELBRI_4"); ("SELBRI_4", "SELBRI_5"); ("SELBRI_4", "KE_SELBRI_3"); ("KE_SELBRI_3", "SELBRI_3");
   ("SELBRI_5", "SELBRI_5"); ("SELBRI_5", "SELBRI_6");
   ("SELBRI_6", "SELBRI_6"); ("SELBRI_6", "SELBRI");
   ("TANRU_UNIT_2", "KE_SELBRI3_TU2"); ("KE_SELBRI3_TU2", "SELBRI_3");
   ("TANRU_UNIT_2", "NAHE_TU2"); ("NAHE_TU2", "TANRU_UNIT_2");
   ("TANRU_UNIT_2", "SE_TU2"); ("TANRU_UNIT_2", "JAI_TU2"); ("TANRU_UNIT_2", "JAI_TAG_TU2")].
Definition alone : list (string * string) :=
  [("SELBRI_2", "SELBRI_3"); ("SELBRI_6", "TANRU_UNIT"); ("TANRU_UNIT", "TANRU_UNIT_1"); ("TANRU_UNIT_1", "TANRU_UNIT_2")].

(* one step down, and what becomes of what is given *)
Inductive step (T : tree) : path -> args -> nat -> args -> Prop :=
| s_head p k i k' a : kid T p k i k' -> In (k, k') heads -> step T p a i a
| s_alone p k k' cc a : subtree T p = Some (NT k [NT k' cc]) -> In (k, k') alone -> step T p a 0 a
(* co: the first part has the terms before, the last the terms after *)
| s_co_first p i j pre post lc :
    kid T p "SELBRI_2" i "SELBRI_3" -> kid T p "SELBRI_2" j "SELBRI_2" ->
    (forall q n, p = q ++ [n] -> ~ kid T q "SELBRI_2" n "SELBRI_2") ->
    step T p (pre, post, lc) i (pre, [], lc)
| s_co_rest p j pre post lc : kid T p "SELBRI_2" j "SELBRI_2" -> step T p (pre, post, lc) j ([], post, lc)
| s_links p c la pre post lc :
    subtree T p = Some (NT "TANRU_UNIT_1" [c; la]) ->
    step T p (pre, post, lc) 0 (pre, post, lc ++ [(LC_LINKS (sorts (terms_in (p ++ [1]) la)), [])])
| s_se p c rest i r x n pre post lc :
    subtree T p = Some (NT "SE_TU2" (c :: rest)) -> word_of T_SE c r x -> In (text_of x, n) [("se", 2); ("te", 3); ("ve", 4); ("xe", 5)] ->
    kid T p "SE_TU2" i "TANRU_UNIT_2" ->
    step T p (pre, post, lc) i (pre, post, lc ++ [(LC_SE n, p ++ [0])])
| s_jai p i pre post lc : kid T p "JAI_TU2" i "TANRU_UNIT_2" ->
    step T p (pre, post, lc) i (pre, post, lc ++ [(LC_JAI, [])])
| s_jai_tag p i j pre post lc : kid T p "JAI_TAG_TU2" i "TANRU_UNIT_2" -> kid T p "JAI_TAG_TU2" j "TAG" ->
    step T p (pre, post, lc) i (pre, post, lc ++ [(LC_TAG (p ++ [j]) (p ++ [i]), [])]).

Inductive down (T : tree) : path -> args -> path -> args -> Prop :=
| d_here p a : down T p a p a
| d_step p a i b q c : step T p a i b -> down T (p ++ [i]) b q c -> down T p a q c.

(* where it begins: the selbri of a bridi with the terms of that bridi, *)
Inductive begins (T : tree) : path -> args -> Prop :=
| b_bridi p k ch : subtree T p = Some (NT k ch) -> among k ["MAIN_SELBRI"; "METALINGUISTIC_MAIN_SELBRI"] = true ->
    begins T (p ++ [0]) (before T p, after T p, [])
(* the selbri of a description, with none; *)
| b_sumti p k i : kid T p k i "SELBRI" -> among k ["SUMTI_5B"; "SUMTI_TAIL_1A"] = true ->
    begins T (p ++ [i]) nothing.
(* and linked terms elsewhere: in no head, and not inside what has linked terms itself *)
Definition linked (T : tree) (p : path) : Prop := exists c la, subtree T p = Some (NT "TANRU_UNIT_1" [c; la]).
Definition loose (T : tree) (p : path) : Prop :=
  linked T p /\
  (forall q a b, begins T q a -> ~ down T q a p b) /\
  (forall q a b, linked T q -> q <> p -> ~ down T q a p b).
Definition source (T : tree) (p : path) (a : args) : Prop :=
  begins T p a \/ loose T p /\ a = nothing.

(* ---------- what the terms are called ---------- *)

(* the word that gives the places of a tanru_unit_2, and the node where the conversion is put *)
Inductive names (T : tree) (p : path) : (Z -> term_tag) -> option path -> Prop :=
| n_brivla c rest r x w ty : subtree T p = Some (NT "TANRU_UNIT_2" (c :: rest)) -> word c = Some (r, x) ->
    dat x = N_BRIVLA w ty -> names T p (TTT_BRIVLA (p ++ 0 :: r)) (Some (p ++ 0 :: r))
| n_zei c rest r x a b t : subtree T p = Some (NT "TANRU_UNIT_2" (c :: rest)) -> word c = Some (r, x) ->
    dat x = N_ZEI a b t -> names T p (TTT_ZEI (p ++ 0 :: r)) (Some (p ++ 0 :: r))
| n_goha c rest r x : subtree T p = Some (NT "TANRU_UNIT_2" (c :: rest)) -> word_of T_GOhA c r x ->
    names T p (TTT_GOhA (p ++ 0 :: r)) (Some (p ++ 0 :: r))
| n_me c rest r x i : subtree T p = Some (NT "TANRU_UNIT_2" (c :: rest)) -> word_of T_ME c r x ->
    kid T p "TANRU_UNIT_2" i "SUMTI" -> names T p (TTT_ME (p ++ [i])) None
| n_nuha c rest r x i : subtree T p = Some (NT "TANRU_UNIT_2" (c :: rest)) -> word_of T_NUhA c r x ->
    kid T p "TANRU_UNIT_2" i "MEX_OPERATOR" -> names T p (TTT_NUhA (p ++ [i])) (Some (p ++ 0 :: r))
| n_moi rest cc i c r x : subtree T p = Some (NT "TANRU_UNIT_2" (NT "NUMBER_MOI_TU2" cc :: rest)) ->
    nth_error cc i = Some c -> word_of T_MOI c r x ->
    names T p (TTT_NUMBERMOI (p ++ [0; 0]) (p ++ 0 :: i :: r)) None
| n_nu rest cc ccc c r x :
    subtree T p = Some (NT "TANRU_UNIT_2" (NT "ABSTRACTION" (NT "NU_NAI_SEQ" (c :: ccc) :: cc) :: rest)) ->
    word_of T_NU c r x -> names T p (TTT_ABSTRACTION (p ++ 0 :: 0 :: 0 :: r)) (Some (p ++ 0 :: 0 :: 0 :: r)).

(* the name of a place: of the word, or of the tag of a jai *)
Definition name (mk : Z -> term_tag) (a : place_type * nat) : term_tag :=
  match fst a with PT_TAG t u => TTT_JAITAG t u (Z.of_nat (snd a)) | _ => mk (Z.of_nat (snd a)) end.

(* A term is called by a name: it is a term of the bridi of a head, or linked to it, and it is
   given that place of the head ([observed], TermsSpec.v). *)
Definition called (T : tree) (x : path) (t : term_tag) : Prop :=
  exists s a q pre post lc mk conv out n p,
    source T s a /\ down T s a q (pre, post, lc) /\ names T q mk conv /\
    observed pre post (map fst lc) out /\ In (x, n, p) out /\ t = name mk p.

(* ---------- conversions ---------- *)

(* what is inside the last jai that has a tag *)
Definition is_tag (e : link_conv * path) : bool := match fst e with LC_TAG _ _ => true | _ => false end.
Definition inside (lc l : list (link_conv * path)) : Prop :=
  existsb is_tag l = false /\ (lc = l \/ exists l1 t, lc = l1 ++ t :: l /\ is_tag t = true).
Definition exchanges (l : list (link_conv * path)) : list op :=
  flat_map (fun e => match fst e with LC_SE n => [Se n] | _ => [] end) l.

(* A head stands for its place n, at the node x: its first place as it is used is its place n. *)
Definition converted (T : tree) (x : path) (n : nat) : Prop :=
  exists s a q pre post lc l mk,
    source T s a /\ down T s a q (pre, post, lc) /\ names T q mk (Some x) /\ inside lc l /\ ConvSpec.place (exchanges l) 1 = Some n.
(* the SE at a node is told by the head *)
Definition told (T : tree) (y : path) : Prop :=
  exists s a q pre post lc l mk x n,
    source T s a /\ down T s a q (pre, post, lc) /\ names T q mk (Some x) /\ inside lc l /\ In (LC_SE n, y) l.

(* ---------- what labels refer to ---------- *)

(* What a label names is there: the word is a word of the right sort, and the part of the text
   that is shown as a number has brackets, which carry that number (for numbers with MOI see
   WalkProps.v). *)
Inductive refers (T : tree) (bracketed : path -> Prop) : term_tag -> Prop :=
| rf_brivla q x w ty n : subtree T q = Some (Leaf x) -> dat x = N_BRIVLA w ty -> refers T bracketed (TTT_BRIVLA q n)
| rf_zei q x a b t n : subtree T q = Some (Leaf x) -> dat x = N_ZEI a b t -> refers T bracketed (TTT_ZEI q n)
| rf_goha q x n : subtree T q = Some (Leaf x) -> cmtest x T_GOhA = true -> refers T bracketed (TTT_GOhA q n)
| rf_nu q x n : subtree T q = Some (Leaf x) -> cmtest x T_NU = true -> refers T bracketed (TTT_ABSTRACTION q n)
| rf_me q ch n : subtree T q = Some (NT "SUMTI" ch) -> bracketed q -> refers T bracketed (TTT_ME q n)
| rf_nuha q ch n : subtree T q = Some (NT "MEX_OPERATOR" ch) -> bracketed q -> refers T bracketed (TTT_NUhA q n)
| rf_moi q k ch r x n : subtree T q = Some (NT k ch) -> subtree T r = Some (Leaf x) -> cmtest x T_MOI = true ->
    refers T bracketed (TTT_NUMBERMOI q r n)
| rf_jai q ch r cc n : subtree T q = Some (NT "TAG" ch) -> subtree T r = Some (NT "TANRU_UNIT_2" cc) -> bracketed r ->
    refers T bracketed (TTT_JAITAG q r n).
Definition place_of (t : term_tag) : Z :=
  match t with
  | TTT_BRIVLA _ n | TTT_JAITAG _ _ n | TTT_ABSTRACTION _ n | TTT_ME _ n | TTT_NUMBERMOI _ _ n | TTT_GOhA _ n | TTT_NUhA _ n | TTT_ZEI _ n => n
  end.
