(* What tenses, modals and relative clauses belong to, told from the kinds of the nodes
   around them. *)
From Coq Require Import String List NArith Bool Arith.
From Verif Require Import Base TokData TokModel TreeModel PassModel.
Import ListNotations.
Open Scope string_scope.
Open Scope list_scope.

Definition among (ty : string) (l : list string) : bool := existsb (String.eqb ty) l.

(* parts of a tense or modal tag *)
Definition tag_parts : list string :=
  ["TAG"; "CTAG"; "STAG"; "COMPLEX_TENSE_MODAL"; "SIMPLE_TENSE_MODAL"; "SE_BAI"; "BAI1"; "TIME"; "ZEHA_PU_NAI";
   "TIME_OFFSET"; "TIME_OFFSET_SEQ"; "SPACE"; "SPACE_OFFSET"; "SPACE_OFFSET_SEQ"; "SPACE_INTERVAL"; "SPACE_INT_PROPS";
   "SPACE_INT_PROP"; "INTERVAL_PROPERTY"; "INTERVAL_PROPERTY_SEQ"].
(* parts of a selbri that have a selbri or a tag inside *)
Definition selbri_parts : list string :=
  ["SELBRI"; "SELBRI_1"; "SELBRI_2"; "SELBRI_3"; "SELBRI_4"; "SELBRI_5"; "SELBRI_6"; "KE_SELBRI_3"; "KE_SELBRI3_TU2";
   "NAHE_TU2"; "SE_TU2"; "JAI_TU2"; "JAI_TAG_TU2"; "TANRU_UNIT"; "TANRU_UNIT_1"; "TANRU_UNIT_2"; "SUMTI_TAIL_1A"].
(* connectives that may have a tense or modal in them *)
Definition tensed_connectives : list string :=
  ["TEXT_1C"; "I_JJ_STAG_BO"; "GIHEK_STAG_KE"; "GIHEK_STAG_BO"; "JOIK_EK_KE"; "JOIK_EK_STAG_BO"; "JOIK_STAG_KE";
   "JOIK_JEK_STAG_BO"].

(* what a selbri is the selbri of: a bridi, or a description.  None: an operator, a
   number, a fi'o modal or a vocative *)
Fixpoint selbri_role (l : list string) : option tense_ctx :=
  match l with
  | [] => None
  | ty :: up =>
      if among ty selbri_parts then selbri_role up
      else if among ty ["MAIN_SELBRI"; "METALINGUISTIC_MAIN_SELBRI"] then Some TSC_SELBRI
      else if among ty ["SUMTI_5B"; "SUMTI_TAIL_1"] then Some TSC_NOUN
      else None
  end.
(* what a tag belongs to: a term, a connective between two things, a forethought
   connective, jai, a bridi, or a selbri *)
Fixpoint tense_role (l : list string) : option tense_ctx :=
  match l with
  | [] => None
  | ty :: up =>
      if among ty tag_parts then tense_role up
      else if among ty ["TERM_TAGGED_SUMTI"; "TAGGED_TERMSET"] then Some TSC_TERM
      else if among ty tensed_connectives then Some TSC_LINK
      else if among ty ["STATEMENT_3"; "TERM_FLOATING_TENSE"; "GEK_SENTENCE"] then Some TSC_SELBRI
      else if String.eqb ty "JAI_TAG_TU2" then Some TSC_JAITAG
      else if String.eqb ty "GEK" then Some TSC_CONNECT
      else if String.eqb ty "SELBRI" then selbri_role up
      else None
  end.

(* the tag has a complex tense or modal around the word: a free modifier after the
   tense *)
Fixpoint free_after (l : list string) : bool :=
  match l with
  | [] => false
  | ty :: up => if String.eqb ty "COMPLEX_TENSE_MODAL" then true else if among ty tag_parts then free_after up else false
  end.
(* the tag is of a selbri inside what jai with a tag is said of *)
Fixpoint selbri_in_jai (l : list string) : bool :=
  match l with
  | [] => false
  | ty :: up => if String.eqb ty "JAI_TAG_TU2" then true else if among ty selbri_parts then selbri_in_jai up else false
  end.
Fixpoint tag_in_jai (l : list string) : bool :=
  match l with
  | [] => false
  | ty :: up => if among ty tag_parts then tag_in_jai up else if String.eqb ty "SELBRI" then selbri_in_jai up else false
  end.

(* the words and groups of words of a tense or modal that are glossed by context *)
Definition tense_place (s : tree) : Prop :=
  match s with
  | NT ty _ => ty = "TIME_OFFSET" \/ ty = "SPACE_INT_PROP" \/ ty = "INTERVAL_PROPERTY"
  | Leaf x =>
      match dat x with
      | N_CMAVO s _ _ => s = T_ZAhO \/ s = T_VA \/ s = T_FAhA \/ s = T_BAI \/ s = T_PU
      | _ => False
      end
  end.

(* what a relative clause is about, when the clauses are child number j of a node of kind
   k: Some i is the part number i, None the whole *)
Inductive about (k : string) (j : nat) : option nat -> Prop :=
(* the sumti before vu'o *)
| ab_vuho : k = "SUMTI" -> about k j (Some 0)
(* the sumti, or the selbri of a description, that the clauses directly follow; the
   possessor in a description *)
| ab_after i : k = "SUMTI_5" \/ k = "SUMTI_TAIL_1" \/ k = "SUMTI_TAIL" -> j = S i -> about k j (Some i)
(* the sumti that the clauses precede *)
| ab_before : k = "LAHE_SUMTI_6" \/ k = "NAHE_BO_SUMTI_6" -> about k j (Some (S j))
(* the name, the one spoken to *)
| ab_whole : k = "NAME_SUMTI_6" \/ k = "FREE_VOCATIVE" -> about k j None.

(* the innermost node of a kind around a place *)
Definition innermost (k : string) (t : tree) (p q : path) : Prop :=
  exists i r ch, p = q ++ i :: r /\ subtree t q = Some (NT k ch) /\
    forall q' i' r' ch', p = q' ++ i' :: r' -> subtree t q' = Some (NT k ch') -> List.length q' <= List.length q.

(* the group of relative clauses around the clause at a path: the path of the node it is
   in, which child it is, and the kind of that node *)
Definition group (t : tree) (p q : path) (j : nat) (k : string) : Prop :=
  innermost "RELATIVE_CLAUSES" t p (q ++ [j]) /\ exists ch, subtree t q = Some (NT k ch).

Definition extend (q : path) (o : option nat) : path := match o with Some i => q ++ [i] | None => q end.

(* the word that introduces a relative phrase (goi, po, ...), when it is the one about
   to be left out: what follows is a sumti with a tag.  r is the place of the word in the
   phrase *)
Definition goi_of_tagged (ch : list tree) (r : path) : Prop :=
  (exists x, subtree (NT "TERM_RELATIVE_CLAUSE" ch) r = Some (Leaf x) /\ cmtest x T_GOI = true /\ hd_error r = Some 0) /\
  exists tc k cc, In (NT "TERM" (NT k cc :: tc)) ch /\ (k = "TERM_TAGGED_SUMTI" \/ k = "TAGGED_TERMSET").
