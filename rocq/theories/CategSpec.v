(* What the markers of categ.c mean, stated on the sequence of words and markers. *)
From Coq Require Import String List NArith Bool.
From Verif Require Import Base DfaModel NfaData DfaSpec TokData TokModel.
Import ListNotations.
Open Scope N_scope.
Open Scope list_scope.

Definition is_marker (x : node) : bool := match dat x with N_MARKER _ => true | _ => false end.

(* the words, without the note "a free modifier follows" *)
Definition plain (x : node) : node :=
  match dat x with N_CMAVO s c _ => set_dat (N_CMAVO s c false) x | _ => x end.
Definition words (l : list node) : list node :=
  map plain (filter (fun x => negb (is_marker x)) l).

(* the nodes a text consists of before the passes: no markers, and no cmavo of
   the selma'o PRIVATE_NUMBER_MAI, which is a marker name and has no words *)
Definition wordy (x : node) : bool :=
  match dat x with
  | N_MARKER _ => false
  | N_CMAVO s _ _ => negb (tok_eqb s T_PRIVATE_NUMBER_MAI)
  | _ => true
  end.

(* ---- tenses --------------------------------------------------------- *)

(* the selma'o that can occur in a tense, with their names in stag_nfa.in *)
Definition tense_selmao : list (tok * string) :=
  [(T_BAI, "BAI"); (T_BY, "BY"); (T_CAhA, "CAhA"); (T_CUhE, "CUhE"); (T_FAhA, "FAhA");
   (T_FEhE, "FEhE"); (T_FOI, "FOI"); (T_KI, "KI"); (T_LAU, "LAU"); (T_MOhI, "MOhI");
   (T_NAhE, "NAhE"); (T_NAI, "NAI"); (T_PA, "PA"); (T_PU, "PU"); (T_ROI, "ROI"); (T_SE, "SE");
   (T_TAhE, "TAhE"); (T_TEI, "TEI"); (T_VA, "VA"); (T_VEhA, "VEhA"); (T_VIhA, "VIhA");
   (T_ZAhO, "ZAhO"); (T_ZEhA, "ZEhA"); (T_ZI, "ZI")]%string.

(* number of a token name in the description *)
Fixpoint index_of (s : string) (l : list string) (n : N) : option N :=
  match l with
  | [] => None
  | x :: l => if String.eqb s x then Some n else index_of s l (N.succ n)
  end.
Definition named (s : string) : option N :=
  match stag_desc with DTokens l :: _ => index_of s l 0 | _ => None end.
Definition selmao_token (t : tok) : option N :=
  match find (fun p => tok_eqb (fst p) t) tense_selmao with
  | Some (_, s) => named s
  | None => None
  end.

(* what matters of a node: a cmavo of some selma'o, a lerfu made with bu, a
   marker, another word *)
Inductive item : Set := W (t : tok) | Bu | M (t : tok) | X.
Definition item_of (x : node) : item :=
  match dat x with
  | N_CMAVO s _ _ => W s
  | N_BU _ => Bu
  | N_MARKER t => M t
  | _ => X
  end.

Definition tense_token (i : item) : option N :=
  match i with W t => selmao_token t | Bu => named "BU" | _ => None end.

(* the description can still become a tense after these words *)
Definition viable (src : source) (l : list item) : Prop :=
  exists w, map tense_token l = map Some w /\ alive src w.
(* these words are a complete tense *)
Definition tense (src : source) (l : list item) : Prop :=
  exists w r, map tense_token l = map Some w /\ alive src w /\
    exit_rule src w (Some r) /\ r_result r = "SUCCESS"%string.

(* [a] is the longest tense at the start of [l] *)
Definition longest_tense (src : source) (l a b : list node) : Prop :=
  l = a ++ b /\ a <> [] /\ tense src (map item_of a) /\
  forall c d, l = c ++ d -> tense src (map item_of c) -> (List.length c <= List.length a)%nat.
(* no tense at the start of [l] *)
Definition no_tense (src : source) (l : list node) : Prop :=
  forall c d, l = c ++ d -> c <> [] -> ~ tense src (map item_of c).

(* a marker at the position of node [y] *)
Definition mark (t : tok) (y : node) : node := Node (N_MARKER t) (line y) (col y) None false None [].

(* from left to right, the longest possible stretches are marked as tenses *)
Inductive tense_marked (src : source) : list node -> list node -> Prop :=
| tm_nil : tense_marked src [] []
| tm_tense a b b' x z : longest_tense src (a ++ b) a b -> hd_error a = Some x ->
    hd_error (rev a) = Some z -> tense_marked src b b' ->
    tense_marked src (a ++ b)
      (mark T_PRIVATE_START_TENSE x :: a ++ mark T_PRIVATE_END_TENSE z :: b')
| tm_skip x b b' : no_tense src (x :: b) -> tense_marked src b b' ->
    tense_marked src (x :: b) (x :: b').

(* the same scan meets a stretch up to the end of the text that begins no tense
   but could have become one *)
Inductive tense_cut_short (src : source) : list node -> Prop :=
| ts_here l : l <> [] -> no_tense src l -> viable src (map item_of l) -> tense_cut_short src l
| ts_tense a b : longest_tense src (a ++ b) a b -> tense_cut_short src b -> tense_cut_short src (a ++ b)
| ts_skip x b : no_tense src (x :: b) -> tense_cut_short src b -> tense_cut_short src (x :: b).

Definition tense_marks (t : tok) : bool :=
  existsb (tok_eqb t) [T_PRIVATE_START_TENSE; T_PRIVATE_END_TENSE].
Definition not_tense (t : tok) : bool := negb (tense_marks t).

(* [l'] is [l] with markers added whose tag satisfies [P] *)
Inductive marked_with (P : tok -> bool) : list node -> list node -> Prop :=
| mw_nil : marked_with P [] []
| mw_keep x l l' : marked_with P l l' -> marked_with P (x :: l) (x :: l')
| mw_add m t l l' : dat m = N_MARKER t -> P t = true -> marked_with P l l' ->
    marked_with P l (m :: l').

(* ---- connectives ------------------------------------------------------ *)

Definition item_eqb (i j : item) : bool :=
  match i, j with
  | W a, W b => tok_eqb a b
  | M a, M b => tok_eqb a b
  | Bu, Bu => true
  | X, X => true
  | _, _ => false
  end.

(* words that may stand, in this order and each at most once, next to the core
   word: [a] is what is there, and it is all that is there given the neighbour
   [n] after it *)
Inductive takes : list tok -> list item -> option item -> Prop :=
| tk_nil n : takes [] [] n
| tk_take t ts a n : takes ts a n -> takes (t :: ts) (W t :: a) n
| tk_pass t ts a n : takes ts a n -> hd_error (a ++ match n with Some i => [i] | None => [] end) <> Some (W t) ->
    takes (t :: ts) a n.

(* the neighbours that count: words and the brackets of other constructs; the
   single markers put in front of constructs do not *)
Definition bracket (t : tok) : bool :=
  match t with
  | T_PRIVATE_START_TENSE | T_PRIVATE_END_TENSE | T_PRIVATE_START_JEK | T_PRIVATE_END_JEK
  | T_PRIVATE_START_JOIK | T_PRIVATE_END_JOIK | T_PRIVATE_START_EK | T_PRIVATE_START_GIHEK
  | T_PRIVATE_START_GUHEK | T_PRIVATE_START_GEK => true
  | _ => false
  end.
Definition counts (i : item) : bool := match i with M t => bracket t | _ => true end.
Definition neighbour (l : list item) : option item := hd_error (filter counts l).

(* a kind of connective: start marker, end marker if any, and for each core word
   what may precede it (nearest first) and what may follow it *)
Record conn_kind : Set := ConnKind {
  ck_start : tok;
  ck_end : option tok;
  ck_cores : list (tok * list tok * list tok)
}.

Definition jek : conn_kind :=
  ConnKind T_PRIVATE_START_JEK (Some T_PRIVATE_END_JEK) [(T_JA, [T_SE; T_NA], [T_NAI])].
Definition joik : conn_kind :=
  ConnKind T_PRIVATE_START_JOIK (Some T_PRIVATE_END_JOIK)
    [(T_JOI, [T_SE], [T_NAI]); (T_BIhI, [T_SE; T_GAhO], [T_NAI; T_GAhO])].
Definition ek : conn_kind := ConnKind T_PRIVATE_START_EK None [(T_A, [T_SE; T_NA], [])].
Definition gihek : conn_kind := ConnKind T_PRIVATE_START_GIHEK None [(T_GIhA, [T_SE; T_NA], [])].
Definition guhek : conn_kind := ConnKind T_PRIVATE_START_GUHEK None [(T_GUhA, [T_SE], [])].
Definition gek : conn_kind := ConnKind T_PRIVATE_START_GEK None [(T_GA, [T_SE], [])].

(* [g], between [u] and [v], is a marked connective of kind [k] *)
Definition connective (k : conn_kind) (u g v : list item) : Prop :=
  exists c ts fs a b, In (c, ts, fs) (ck_cores k) /\
    takes ts a (neighbour (rev u)) /\ takes fs b (neighbour v) /\
    g = M (ck_start k) :: rev a ++ W c :: b ++ match ck_end k with Some e => [M e] | None => [] end.

(* [g] is a marked tense; a number before roi may be marked inside it *)
Definition tense_region (src : source) (u g v : list item) : Prop :=
  exists b, g = M T_PRIVATE_START_TENSE :: b ++ [M T_PRIVATE_END_TENSE] /\
    tense src (filter (fun i => negb (item_eqb i (M T_PRIVATE_NUMBER_ROI))) b).

(* every selected item belongs to a construct *)
Definition belongs (sel : item -> bool) (occ : list item -> list item -> list item -> Prop)
           (l : list item) : Prop :=
  forall u i v, l = u ++ i :: v -> sel i = true ->
    exists u' g1 g2 v', u = u' ++ g1 /\ v = g2 ++ v' /\ occ u' (g1 ++ i :: g2) v'.

(* the core words of a kind, and its start and end markers *)
Definition core_item (k : conn_kind) (i : item) : bool :=
  match i with W t => existsb (fun c => tok_eqb (fst (fst c)) t) (ck_cores k) | _ => false end.
Definition bracket_item (k : conn_kind) (i : item) : bool :=
  match i with
  | M t => tok_eqb t (ck_start k) || match ck_end k with Some e => tok_eqb t e | None => false end
  | _ => false
  end.

Definition tense_bracket (i : item) : bool :=
  match i with M T_PRIVATE_START_TENSE | M T_PRIVATE_END_TENSE => true | _ => false end.

(* the markers of one sequence are in order: every bracket and every core word
   of every kind belongs to a construct of its kind.  For gek this is claimed of
   the core word only: the same start marker also goes before tense gi and joik gi. *)
Definition well_marked (src : source) (l : list item) : Prop :=
  belongs tense_bracket (tense_region src) l /\
  Forall (fun k => belongs (fun i => core_item k i || bracket_item k i) (connective k) l)
    [jek; joik; ek; gihek; guhek] /\
  belongs (core_item gek) (connective gek) l.

(* the note on a cmavo says whether the next item is a word that begins a free
   modifier *)
Definition free_word (i : item) : bool :=
  match i with W (T_SEI | T_SOI | T_COI | T_DOI | T_TO | T_XI) => true | _ => false end.
Definition free_noted (l : list node) : Prop :=
  forall u x v s c f, l = u ++ x :: v -> dat x = N_CMAVO s c f ->
    f = match v with y :: _ => free_word (item_of y) | [] => false end.
