(* output.c: the glossed output, as the sequence of calls of the output driver. *)
From Coq Require Import String Ascii List NArith ZArith Bool Arith.
From Verif Require Import Base TokData CmavoData TokModel TreeModel TreeOutModel.
From Verif Require TransModel ConnectModel PassModel.
Import TransModel(tctx, TCX_NOUN, TCX_VERB, TCX_QUAL, TCX_TAG, zdec).
Import ConnectModel(xconnective, Logical, Other, cnp, CNP_GE, CNP_GI, CNP_GE_JOIK, CNP_GI_JOIK, CNP_GE_STAG, CNP_GI_STAG, CNP_AFTER).
Import PassModel(tense_ctx, TSC_OTHER, TSC_SELBRI, TSC_TERM, TSC_NOUN, TSC_LINK, TSC_CONNECT, TSC_JAITAG).
Import ListNotations.
Open Scope string_scope.
Open Scope list_scope.

(* nodes.h:33-42 BracketType *)
Inductive bracket : Set :=
| BR_NONE | BR_ROUND | BR_SQUARE | BR_BRACE | BR_ANGLE | BR_CEIL | BR_FLOOR | BR_TRIANGLE.

(* output.h:16-30: the calls of a driver between prologue and epilogue *)
Inductive call : Type :=
| Open (b : bracket) (n : nat)
| Close (b : bracket) (n : nat)
| Eols (n : nat)
| Loj (s : string)
| Eng (s : string)
| StartTags
| EndTags
| StartTag
| TagText (brivla place trans : string) (brac : bool)
| Partial (s : string).

(* output.c:22-29 WhatToShow *)
Inductive mode : Set :=
| SHOW_NONE | SHOW_LOJBAN | SHOW_ENGLISH | SHOW_TAG_TRANS | SHOW_LOJBAN_AND_INDICATORS | SHOW_BOTH.
(* the tests (what == SHOW_LOJBAN) || (what == SHOW_LOJBAN_AND_INDICATORS) || (what == SHOW_BOTH) *)
Definition lojban (m : mode) : bool :=
  match m with SHOW_LOJBAN | SHOW_LOJBAN_AND_INDICATORS | SHOW_BOTH => true | _ => false end.
(* (what == SHOW_ENGLISH) || (what == SHOW_BOTH) *)
Definition english (m : mode) : bool := match m with SHOW_ENGLISH | SHOW_BOTH => true | _ => false end.

(* nodes.h:106-121: nodes with the fields number and brackets *)
Inductive atree : Type :=
| ALeaf (x : node) (b : bracket) (n : nat)
| ANT (ty : string) (b : bracket) (n : nat) (ch : list atree).
(* the node without them *)
Fixpoint bare (a : atree) : tree :=
  match a with ALeaf x _ _ => Leaf x | ANT ty _ _ ch => NT ty (map bare ch) end.
(* the node at a path *)
Fixpoint asub (t : atree) (p : path) : option atree :=
  match p with
  | [] => Some t
  | i :: p =>
      match t with
      | ALeaf _ _ _ => None
      | ANT _ _ _ ch => match nth_error ch i with Some c => asub c p | None => None end
      end
  end.
(* x->type == N_NONTERM with data.nonterm.type == ty *)
Definition is_ant (ty : string) (a : atree) : bool :=
  match a with ANT s _ _ _ => String.eqb s ty | ALeaf _ _ _ => false end.

Definition one_of (ty : string) (l : list string) : bool := existsb (String.eqb ty) l.

(* output.c:44-161: the brackets of a nonterminal; require_brac is given *)
Definition brackets_of (require_brac : bool) (ty : string) (ch : list tree) : bracket :=
  let several := Nat.ltb 1 (List.length ch) in
  if String.eqb ty "TERM" then BR_ROUND
  else if one_of ty ["SUMTI_2"; "SUMTI_3"; "SUMTI_4"; "SUMTI_5"] then if several then BR_CEIL else BR_NONE
  else if one_of ty ["SUMTI_5A"; "SUMTI_5B"; "NAME_SUMTI_6"] then if require_brac then BR_CEIL else BR_NONE
  else if one_of ty ["SUMTI"; "SUMTI_1"; "LAHE_SUMTI_6"; "NAHE_BO_SUMTI_6"; "FREE_VOCATIVE"] then
    if several || require_brac then BR_CEIL else BR_NONE
  else if String.eqb ty "SUMTI_TAIL_1A" then if require_brac then BR_CEIL else BR_NONE
  else if one_of ty ["SELBRI_1"; "SELBRI_2"; "SELBRI_3"; "SELBRI_4"; "SELBRI_5"; "SELBRI_6"] then
    if several then BR_FLOOR else BR_NONE
  else if one_of ty ["MAIN_SELBRI"; "METALINGUISTIC_MAIN_SELBRI"] then BR_TRIANGLE
  else if one_of ty ["SENTENCE"; "FRAGMENT"] then BR_SQUARE
  else if String.eqb ty "RELATIVE_CLAUSES" then
    (* y->children[0]->data.nonterm.nchildren; a terminal or no child there is not
       modelled and counts as one child (OutProofs: it does not occur) *)
    match ch with NT _ (_ :: _ :: _) :: _ => BR_ROUND | _ => BR_NONE end
  else if String.eqb ty "RELATIVE_CLAUSE" then BR_ANGLE
  else if String.eqb ty "ABSTRACTION" then BR_ANGLE
  else if String.eqb ty "TANRU_UNIT_1" then if several then BR_BRACE else BR_NONE
  else if String.eqb ty "TANRU_UNIT_2" then if require_brac then BR_BRACE else BR_NONE
  else if String.eqb ty "FREE" then BR_ROUND
  else if one_of ty ["NUMBER"; "LERFU_STRING"; "MEX_OPERATOR"] then if require_brac then BR_ROUND else BR_NONE
  else BR_NONE.
Definition is_none (b : bracket) : bool := match b with BR_NONE => true | _ => false end.

(* output.c:34-173 add_bracketing_internal: the tree with the fields set, and *seq *)
Fixpoint add_bracketing (rb : path -> bool) (p : path) (seq : nat) (t : tree) : atree * nat :=
  match t with
  | Leaf x =>
      match dat x with
      | N_ZEI _ _ _ => (ALeaf x BR_FLOOR (S seq), S seq)
      | _ => (ALeaf x BR_NONE 0, seq)
      end
  | NT ty ch =>
      let b := brackets_of (rb p) ty ch in
      let n := if is_none b then 0 else S seq in
      let seq := if is_none b then seq else S seq in
      let '(ch, seq) :=
        (fix go (i : nat) (l : list tree) (seq : nat) : list atree * nat :=
           match l with
           | [] => ([], seq)
           | c :: l =>
               let '(c, seq) := add_bracketing rb (p ++ [i]) seq c in
               let '(l, seq) := go (S i) l seq in
               (c :: l, seq)
           end) 0 ch seq in
      (ANT ty b n ch, seq)
  end.
(* output.c:175-183 add_bracketing_tags *)
Definition add_bracketing_tags (rb : path -> bool) (top : tree) : atree := fst (add_bracketing rb [] 0 top).

(* nodes.h:194-249 XTermTag: the fields that belong to the type; nodes by their paths.
   TTT_JAI is never assigned (terms.c:487-492 with PT_JAI) and left out. *)
Inductive term_tag : Type :=
| TTT_BRIVLA (x : path) (pos : Z)
| TTT_JAITAG (tag inner_tu2 : path) (pos : Z)
| TTT_ABSTRACTION (nu : path) (pos : Z)
| TTT_ME (sumti : path) (pos : Z)
| TTT_NUMBERMOI (number_or_lerfu moi : path) (pos : Z)
| TTT_GOhA (goha : path) (pos : Z)
| TTT_NUhA (mex_operator : path) (pos : Z)
| TTT_ZEI (zei : path) (pos : Z).

(* properties.c: the properties that output.c reads, for the node at a path, and the
   field eols *)
Record props : Type := Props {
  p_eols : path -> nat;
  p_elidable : path -> bool;
  p_conversion : path -> option nat;
  p_bai_conversion : path -> option nat;
  p_tense_ctx : path -> option tense_ctx;
  p_glosstype : path -> option (bool * bool);        (* in_selbri, is_tertau *)
  p_dont_gloss : path -> bool;
  p_connective : path -> option xconnective;
  p_term_tags : path -> list term_tag;
  p_rel_clause_link : path -> option path;
  p_antecedent : path -> option path
}.

(* strcpy, strcat or sprintf into a buffer of n characters *)
Definition put (n : N) (s : string) : outcome string :=
  if N.ltb (N.of_nat (String.length s)) n then Ok s else UB UB_bounds.

(* sprintf(buffer, format, n) with one int: %d is the number, %% a percent sign; any
   other directive reads an argument that is not there or of another type *)
Fixpoint sprintf_d (fmt : string) (n : nat) (used : bool) : outcome string :=
  match fmt with
  | "" => Ok ""
  | String "%" (String "d" r) =>
      if used then UB UB_other else do s <- sprintf_d r n true; Ok (zdec (Z.of_nat n) ++ s)%string
  | String "%" (String "%" r) => do s <- sprintf_d r n used; Ok (String "%" s)
  | String c r => if Ascii.eqb c "%" then UB UB_other else do s <- sprintf_d r n used; Ok (String c s)
  end.

(* output.c:199, 212, 476-494, 1218-1241: the ending of the key for a context *)
Definition ctx_ending (c : tense_ctx) : string :=
  match c with
  | TSC_OTHER => "" | TSC_TERM => "@TERM" | TSC_NOUN => "@NOUN" | TSC_SELBRI => "@SELBRI"
  | TSC_LINK => "@LINK" | TSC_CONNECT => "@CONNECT" | TSC_JAITAG => "@JAI"
  end.

(* the words of selma'o UI, BAhE, Y, DAhO, FUhO: output.c:315-320 and 1477-1482 *)
Definition bystander (s : tok) : bool := existsb (tok_eqb s) [T_UI; T_BAhE; T_DAhO; T_Y; T_FUhO].

(* output.c:297-336 get_cmavo_text_inside_node_internal *)
Fixpoint cmavo_text_inside (a : atree) : string :=
  match a with
  | ANT _ _ _ ch => String.concat "" (map cmavo_text_inside ch)
  | ALeaf x _ _ =>
      match dat x with
      | N_CMAVO s c _ => if bystander s then "" else cmavo_word c
      | N_BU w => w
      | _ => ""
      end
  end.
(* output.c:337-343 get_cmavo_text_inside_node *)
Definition get_cmavo_text_inside_node (a : atree) : outcome string := put 1024 (cmavo_text_inside a).

(* output.c:372-400 and 420-450 *)
Definition cai_key (k : caicode) : string :=
  match k with
  | CC_CAI => "cai" | CC_SAI => "sai" | CC_RUhE => "ru'e" | CC_CUhI => "cu'i" | CC_RUhENAI => "ru'enai"
  | CC_SAINAI => "sainai" | CC_CAINAI => "cainai" | CC_PEI => "pei" | CC_PEINAI => "peinai"
  end.

Section OUTPUT.
  (* translate.c: translate, adv_translate (which never gives NULL), translate_unknown.
     The static buffers behind their results are not modelled. *)
  Variable translate : string -> option string.
  Variable adv_translate : string -> Z -> tctx -> outcome string.
  Variable translate_unknown : string -> Z -> tctx -> outcome (option string).
  Variable P : props.
  (* the whole tree, for the nodes that properties point to *)
  Variable top : atree.

  (* y->data.nonterm.number and y->data.zei.number of the node at a path *)
  Definition number_at (q : path) : outcome nat :=
    match asub top q with Some (ANT _ _ n _) => Ok n | Some (ALeaf _ _ _) => UB UB_other | None => UB UB_null end.
  Definition zei_at (q : path) : outcome (string * nat) :=
    match asub top q with
    | Some (ALeaf x _ n) => match dat x with N_ZEI _ plus _ => Ok (plus, n) | _ => UB UB_other end
    | Some (ANT _ _ _ _) => UB UB_other
    | None => UB UB_null
    end.
  (* cmavo_table[y->data.cmavo.code].cmavo and y->data.brivla.word *)
  Definition cmavo_at (q : path) : outcome string :=
    match asub top q with
    | Some (ALeaf x _ _) => match dat x with N_CMAVO _ c _ => Ok (cmavo_word c) | _ => UB UB_other end
    | Some (ANT _ _ _ _) => UB UB_other
    | None => UB UB_null
    end.
  Definition brivla_at (q : path) : outcome string :=
    match asub top q with
    | Some (ALeaf x _ _) => match dat x with N_BRIVLA w _ => Ok w | _ => UB UB_other end
    | Some (ANT _ _ _ _) => UB UB_other
    | None => UB UB_null
    end.

  (* output.c:185-235 translate_bai *)
  Definition translate_bai (p : path) (w : string) : outcome string :=
    do pre <- match p_bai_conversion P p with
              | None | Some 1 => Ok "" | Some 2 => Ok "se" | Some 3 => Ok "te" | Some 4 => Ok "ve" | Some 5 => Ok "xe"
              | Some _ => UB UB_bounds
              end;
    let key := (pre ++ w ++ match p_tense_ctx P p with Some TSC_JAITAG => "@JAI" | _ => "" end)%string in
    match translate key with
    | Some t => put 1024 t
    | None => match translate w with Some t => put 1024 (t ++ " (CONV?)") | None => Ok "?" end
    end.
  (* output.c:345-355 translate_other_cmavo; 237-267 translate_se, translate_goi *)
  Definition translate_other_cmavo (w : string) : outcome string :=
    match translate w with Some t => put 1024 t | None => Ok "" end.
  Definition translate_se_goi (p : path) (w : string) : outcome string :=
    if p_dont_gloss P p then Ok "" else translate_other_cmavo w.
  (* output.c:269-295 translate_koha *)
  Definition translate_koha (p : path) (w : string) : outcome string :=
    do e <- translate_other_cmavo w;
    if String.eqb w "ke'a" then
      match p_rel_clause_link P p with
      | None => Ok e
      | Some r =>
          match p_antecedent P r with
          | None => Ok e
          | Some a => do n <- number_at a; put 1024 (e ++ " #" ++ zdec (Z.of_nat n))
          end
      end
    else Ok e.
  (* output.c:357-452 translate_indicator: loj and eng *)
  Definition translate_indicator (w : string) (negated : bool) (k : option caicode) : outcome (string * string) :=
    do buffer <- match k with
                 | None => Ok ""
                 | Some k => match translate (cai_key k) with Some t => put 65536 (t ++ " ") | None => UB UB_null end
                 end;
    let loj := (w ++ if negated then "nai" else "")%string in
    do eng <- match translate loj with
              | Some t => do b <- put 65536 (buffer ++ t); put 1024 ("{" ++ b ++ "..}")
              | None => Ok ""
              end;
    Ok (loj ++ match k with Some k => " " ++ cai_key k | None => "" end, eng)%string.
  (* output.c:454-502 translate_tense_in_context *)
  Definition translate_tense_in_context (w : string) (c : tense_ctx) : option string :=
    match translate (w ++ ctx_ending c)%string with Some t => Some t | None => translate w end.
  (* output.c:504-525 translate_tense *)
  Definition translate_tense (p : path) (w : string) : outcome string :=
    match p_tense_ctx P p with
    | Some c => match translate_tense_in_context w c with Some t => put 1024 t | None => translate_other_cmavo w end
    | None => translate_other_cmavo w
    end.
  (* output.c:527-578 translate_time_offset: eng.  The cmavo are those of the children *)
  Definition translate_time_offset (p : path) (ch : list atree) : outcome string :=
    let bs := map bare ch in
    let nai := find_nth_cmavo_child bs 1 T_NAI in
    let zi := find_nth_cmavo_child bs 1 T_ZI in
    match find_nth_cmavo_child bs 1 T_PU with
    | None => Abort
    | Some pu =>
        let txt o := match o with Some x => text_of x | None => "" end in
        let loj := (text_of pu ++ txt nai ++ txt zi)%string in
        let one w := match translate w with Some t => t | None => "?" end in
        let more o := match o with Some x => (" " ++ one (text_of x))%string | None => "" end in
        match p_tense_ctx P p with
        | Some c =>
            match translate_tense_in_context loj c with
            | Some t => put 1024 t
            | None => put 1024 (one (text_of pu) ++ more nai ++ more zi)
            end
        | None => Ok ""
        end
    end.
  (* output.c:580-613 translate_jai *)
  Definition translate_jai (p : path) (w : string) : outcome string :=
    let e := match p_glosstype P p with
             | Some (in_selbri, true) => if in_selbri then "_v" else "_n"
             | _ => "_a"
             end in
    match translate (w ++ e)%string with Some t => put 1024 t | None => translate_other_cmavo w end.
  (* output.c:615-674 translate_convertible; None is NULL *)
  Definition translate_convertible (w : string) (p : path) : outcome (option string) :=
    let conv := match p_conversion P p with Some c => c | None => 1 end in
    match p_glosstype P p with
    | Some (in_selbri, is_tertau) =>
        do t <- adv_translate w (Z.of_nat conv) (if is_tertau then if in_selbri then TCX_VERB else TCX_NOUN else TCX_QUAL);
        Ok (Some t)
    | None =>
        match translate (w ++ zdec (Z.of_nat conv))%string with
        | Some t => Ok (Some t)
        | None =>
            match translate w with
            | Some t => Ok (Some (t ++ match p_conversion P p with Some _ => " (CONV?)" | None => "" end)%string)
            | None => translate_unknown w (Z.of_nat conv) TCX_NOUN
            end
        end
    end.
  (* output.c:676-703 translate_brivla, translate_abstraction *)
  Definition translate_content (w : string) (p : path) : outcome string :=
    do t <- translate_convertible w p;
    match t with Some t => put 1024 t | None => Ok "" end.
  (* output.c:705-714 attempt_translation *)
  Definition attempt_translation (w : string) : outcome string :=
    match translate w with Some t => put 1024 t | None => Ok "?" end.

  (* output.c:728-767 *)
  Definition cmavo_gloss (p : path) (s : tok) (w : string) : outcome string :=
    match s with
    | T_BAI => translate_bai p w
    | T_SE | T_GOI => translate_se_goi p w
    | T_KOhA => translate_koha p w
    | T_NU => translate_content w p
    | T_PU | T_ZAhO | T_VA | T_FAhA => translate_tense p w
    | T_JAI => translate_jai p w
    | _ => translate_other_cmavo w
    end.
  (* output.c:804-812: the words of a zei compound one at a time *)
  Fixpoint zei_words (l : list node) : outcome (list string) :=
    match l with
    | [] => Ok []
    | y :: l =>
        do w <- build_string_from_node y;
        do r <- zei_words l;
        Ok (match translate w with Some t => t | None => "?" end :: r)
    end.
  (* output.c:716-842 get_lojban_word_and_translation: loj and eng.  For the other types
     of nodes nothing is written to the buffers *)
  Definition word_and_translation (p : path) (x : node) : outcome (string * string) :=
    match dat x with
    | N_CMAVO s c _ =>
        let w := cmavo_word c in
        match s with
        | T_UI | T_CAI => translate_indicator w (neg x) (cai x)
        | _ => do e <- cmavo_gloss p s w; Ok (if p_elidable P p then make_uppercase w else w, e)
        end
    | N_ZOI form term text =>
        do l <- put 1024 (form ++ " " ++ term ++ " " ++ text ++ " " ++ term);
        do e <- attempt_translation text; Ok (l, e)
    | N_ZO text =>
        do l <- put 1024 ("zo " ++ text);
        do b <- attempt_translation text;
        do e <- put 1024 ("""" ++ b ++ """"); Ok (l, e)
    | N_ZEI ys plus zei =>
        do l <- put 1024 zei;
        do t <- translate_convertible plus p;
        let known := match t with Some t => negb (prefix "?" t) | None => false end in
        if known then do e <- put 1024 (match t with Some t => t | None => "" end); Ok (l, e)
        else do ws <- zei_words ys; do e <- put 1024 (String.concat " type-of " ws); Ok (l, e)
    | N_LOhU text =>
        do l <- put 1024 ("lo'u " ++ text ++ " le'u");
        do e <- attempt_translation text; Ok (l, e)
    | N_BU w =>
        do l <- put 1024 (w ++ ".bu");
        do e <- attempt_translation l; Ok (l, e)
    | N_BRIVLA w _ =>
        do l <- put 1024 w;
        do e <- translate_content w p; Ok (l, e)
    | N_CMENE w => do l <- put 1024 w; Ok (l, "[NAME]")
    | N_MARKER _ | N_GARBAGE _ | N_BROKEN_ERASURE _ => UB UB_uninit
    end%string.

  (* if (eng[0]) (drv->translation)(eng) and if (eng[0]) (drv->write_tag_text)("","",eng,NO) *)
  Definition say (e : string) : list call := if String.eqb e "" then [] else [Eng e].
  Definition say_tag (e : string) : list call := if String.eqb e "" then [] else [TagText "" "" e false].

  (* strchr("aeiou", c) for the first character, which may be the final NUL *)
  Definition starts_with_vowel (s : string) : bool :=
    match s with "" => true | String c _ => existsb (Ascii.eqb c) ["a"; "e"; "i"; "o"; "u"]%char end.

  (* output.c:1399-1501: a terminal *)
  Definition output_leaf (m : mode) (p : path) (x : node) (b : bracket) (n : nat) : outcome (list call) :=
    do (loj, eng) <- word_and_translation p x;
    match dat x with
    | N_ZEI _ _ _ =>
        Ok ((if lojban m then [Open b n; Loj loj] else []) ++
            (if english m then say eng ++ [Eols (p_eols P p)]
             else match m with SHOW_TAG_TRANS => say_tag eng ++ [Eols (p_eols P p)] | _ => [] end) ++
            (if lojban m then [Close b n] else []))
    | d =>
        do text <- put 1024 ((if starts_with_vowel loj then "." else "") ++ loj ++
                             match d with N_CMENE _ => "." | _ => "" end)%string;
        Ok ((if lojban m then [Loj text] else []) ++
            (if english m then say eng ++ [Eols (p_eols P p)]
             else match m with
                  | SHOW_LOJBAN_AND_INDICATORS =>
                      if match d with N_CMAVO s _ _ => bystander s | _ => false end
                      then say eng ++ [Eols (p_eols P p)] else []
                  | SHOW_TAG_TRANS => say_tag eng ++ [Eols (p_eols P p)]
                  | _ => []
                  end))
    end.

  (* one call after the other *)
  Fixpoint in_turn (l : list (outcome (list call))) : outcome (list call) :=
    match l with
    | [] => Ok []
    | r :: l => do a <- r; do b <- in_turn l; Ok (a ++ b)
    end.

  (* the translation, or the text of a tag *)
  Definition word (m : mode) (t : string) : list call :=
    match m with SHOW_TAG_TRANS => [TagText "" "" t false] | _ => [Eng t] end.

  Section NODE.
    (* output_internal on a node that a property points to *)
    Variable jump : mode -> path -> outcome (list call).
    (* output_internal on the children *)
    Variable kids : mode -> list (outcome (list call)).

    (* output.c:862-972: one tag *)
    Definition output_tag (t : term_tag) : outcome (list call) :=
      match t with
      | TTT_BRIVLA x pos =>
          do w <- brivla_at x; do tr <- adv_translate w pos TCX_TAG;
          Ok [StartTag; TagText w (zdec pos) tr true]
      | TTT_JAITAG tag tu2 _ =>
          do r <- jump SHOW_TAG_TRANS tag; do n <- number_at tu2;
          Ok ((StartTag :: Partial "jai+<tag>1: (" :: r) ++ [Partial ("#" ++ zdec (Z.of_nat n) ++ ")")])%list
      | TTT_ABSTRACTION nu pos =>
          do w <- cmavo_at nu; do tr <- adv_translate w pos TCX_TAG;
          Ok [StartTag; TagText w (zdec pos) tr true]
      | TTT_ME sumti pos =>
          do tr <- adv_translate "me" pos TCX_TAG; do n <- number_at sumti;
          do f <- sprintf_d tr n false; do s <- put 1024 f;
          Ok [StartTag; TagText "me" (zdec pos ++ "..") s true]
      | TTT_NUMBERMOI norl moi pos =>
          do w <- cmavo_at moi; do n <- number_at norl; do tr <- adv_translate w pos TCX_TAG;
          do f <- sprintf_d tr n false; do s <- put 1024 f;
          Ok [StartTag; TagText ("#" ++ zdec (Z.of_nat n) ++ "-" ++ w ++ zdec pos) "" s true]
      | TTT_GOhA goha pos =>
          do w <- cmavo_at goha; Ok [StartTag; TagText (w ++ zdec pos) "" "" true]
      | TTT_NUhA mex pos =>
          do n <- number_at mex; Ok [StartTag; TagText ("#" ++ zdec (Z.of_nat n) ++ "-" ++ zdec pos) "" "" true]
      | TTT_ZEI zei pos =>
          do (plus, n) <- zei_at zei; do tr <- adv_translate plus pos TCX_TAG;
          Ok [StartTag; TagText ("#" ++ zdec (Z.of_nat n) ++ "-" ++ zdec pos) "" tr true]
      end%string.
    (* output.c:844-983 output_term *)
    Definition output_term (m : mode) (p : path) : outcome (list call) :=
      do tags <- (if lojban m then
                    match p_term_tags P p with
                    | [] => Ok []
                    | l => do r <- in_turn (map output_tag l); Ok (StartTags :: r ++ [EndTags])
                    end
                  else Ok []);
      do r <- in_turn (kids m);
      Ok (tags ++ r).

    (* output.c:985-1025 output_simple_time_offset *)
    Definition output_simple_time_offset (m : mode) (p : path) (ch : list atree) : outcome (list call) :=
      do eng <- translate_time_offset p ch;
      do r <- (if lojban m then in_turn (kids SHOW_LOJBAN_AND_INDICATORS) else Ok []);
      Ok (r ++ if english m then say eng ++ [Eols (p_eols P p)]
               else match m with SHOW_TAG_TRANS => say_tag eng | _ => [] end).

    (* output.c:1027-1066 output_sumti_tail *)
    Definition output_sumti_tail (m : mode) (ch : list atree) : outcome (list call) :=
      match ch with
      | [] => UB UB_bounds
      | ALeaf _ _ _ :: _ => UB UB_other
      | c1 :: _ =>
          if is_ant "SUMTI_6" c1 then
            do a <- (if lojban m then do r <- in_turn (firstn 1 (kids SHOW_LOJBAN)); Ok (r ++ [Eng " "]) else Ok []);
            do b <- in_turn (skipn 1 (kids m));
            do c <- (if english m then do r <- in_turn (firstn 1 (kids SHOW_ENGLISH)); Ok (Eng "[of]" :: r) else Ok []);
            Ok (a ++ b ++ c)
          else in_turn (kids m)
      end.

    (* output.c:1068-1185 output_fore_or_afterthought *)
    Definition output_connective (m : mode) (p : path) : outcome (list call) :=
      do a <- (if lojban m then in_turn (kids SHOW_LOJBAN_AND_INDICATORS) else Ok []);
      do b <- (if english m || match m with SHOW_TAG_TRANS => true | _ => false end then
                 let m' := match m with SHOW_TAG_TRANS => SHOW_TAG_TRANS | _ => SHOW_ENGLISH end in
                 match p_connective P p with
                 | None => Abort
                 | Some (Logical pos pattern) =>
                     do e <- match pos with
                             | CNP_AFTER => Ok "@AFTER" | CNP_GE => Ok "@GE" | CNP_GI => Ok "@GI" | _ => UB UB_uninit
                             end;
                     Ok match translate (pattern ++ e)%string with Some t => word m t | None => [] end
                 | Some (Other pos js neg1 neg2) =>
                     match pos with
                     | CNP_GE_STAG => Ok (if neg1 then word m "something other than" else [])
                     | CNP_GE_JOIK => Ok []
                     | CNP_GI_STAG =>
                         do r <- jump m' js; Ok (r ++ if neg2 then word m "other than" else [])
                     | CNP_GI_JOIK =>
                         do r <- jump m' js; Ok ((if neg2 then word m "other than" else []) ++ r)
                     | CNP_AFTER | CNP_GE | CNP_GI => UB UB_uninit         (* xcon->pattern *)
                     end
                 end
               else Ok []);
      Ok (a ++ b).

    (* output.c:1187-1276 output_clustered *)
    Definition output_clustered (m : mode) (p : path) (a : atree) : outcome (list call) :=
      do w <- get_cmavo_text_inside_node a;
      let key := (w ++ match p_tense_ctx P p with Some c => ctx_ending c | None => "" end)%string in
      match (match translate key with Some t => Some t | None => translate w end) with
      | Some t =>
          do t <- put 65536 t;
          do r <- (if lojban m then in_turn (kids SHOW_LOJBAN_AND_INDICATORS) else Ok []);
          Ok (r ++ if english m then [Eng t] else [])
      | None => in_turn (kids m)
      end.

    (* output.c:1295-1305, 1315-1324, 1363-1373: a word between the first child and the rest *)
    Definition with_word (m : mode) (w : string) : outcome (list call) :=
      do a <- in_turn (firstn 1 (kids m));
      do b <- in_turn (skipn 1 (kids m));
      Ok (a ++ (if english m then [Eng w] else []) ++ b).

    (* output.c:1357-1360: y->children[0]->data.nonterm.type, y->children[1]->... *)
    Definition quantified (ch : list atree) : outcome bool :=
      match ch with
      | [] => UB UB_bounds
      | ALeaf _ _ _ :: _ => UB UB_other
      | ANT ty _ _ _ :: ch =>
          if String.eqb ty "QUANTIFIER" then
            match ch with
            | [] => UB UB_bounds
            | ALeaf _ _ _ :: _ => UB UB_other
            | ANT ty _ _ _ :: _ => Ok (String.eqb ty "SUMTI")
            end
          else Ok false
      end.

    (* output.c:1291-1393: what is inside the brackets of a nonterminal *)
    Definition output_inside (m : mode) (p : path) (ty : string) (b : bracket) (n : nat) (ch : list atree)
      : outcome (list call) :=
      if String.eqb ty "SELBRI_3" && Nat.eqb (List.length ch) 2 then with_word m "[type-of]"
      else if String.eqb ty "TERM" then output_term m p
      else if String.eqb ty "NO_CU_SENTENCE" then
        if Nat.eqb (List.length ch) 2 then with_word m "[is, does]" else in_turn (kids m)
      else if String.eqb ty "OBSERVATIVE_SENTENCE" then
        match ch with [] => UB UB_bounds | _ => in_turn (firstn 1 (kids m)) end
      else if String.eqb ty "TIME_OFFSET" then output_simple_time_offset m p ch
      else if one_of ty ["SPACE_INT_PROP"; "INTERVAL_PROPERTY"; "NUMBER_MOI_TU2"] then output_clustered m p (ANT ty b n ch)
      else if String.eqb ty "SUMTI_TAIL" then output_sumti_tail m ch
      else
        do q <- (if String.eqb ty "SUMTI_5A" && Nat.eqb (List.length ch) 2 then Ok true
                 else if String.eqb ty "SUMTI_TAIL_1" then quantified ch else Ok false);
        if q then with_word m "(of)"
        else if one_of ty ["JEK"; "JEK_OPT_KE"; "JEK_OPT_KEBO"; "EK"; "GIHEK"; "GEK"; "GIK"; "GUHEK"] then output_connective m p
        else in_turn (kids m).
    (* output.c:1283-1398: a nonterminal *)
    Definition output_node (m : mode) (p : path) (ty : string) (b : bracket) (n : nat) (ch : list atree)
      : outcome (list call) :=
      do r <- output_inside m p ty b n ch;
      Ok (if lojban m then Open b n :: r ++ [Close b n] else r).
  End NODE.

  (* output.c:1278-1503 output_internal.  The calls on nodes that properties point to
     are not calls on children; the fuel is how deep such calls are nested. *)
  Fixpoint output_internal (fuel : nat) : mode -> path -> atree -> outcome (list call) :=
    fix walk (m : mode) (p : path) (a : atree) {struct a} : outcome (list call) :=
      match a with
      | ALeaf x b n => output_leaf m p x b n
      | ANT ty b n ch =>
          let jump m q :=
            match fuel with
            | O => NoFuel
            | S f => match asub top q with Some c => output_internal f m q c | None => UB UB_null end
            end in
          let kids m := (fix each (i : nat) (l : list atree) : list (outcome (list call)) :=
                           match l with [] => [] | c :: l => walk m (p ++ [i]) c :: each (S i) l end) 0 ch in
          output_node jump kids m p ty b n ch
      end.
  (* output.c:1505-1515 do_output, the calls between prologue and epilogue.  Two jumps
     are enough for every parse tree (OutProps). *)
  Definition do_output : outcome (list call) := output_internal 2 SHOW_BOTH [] top.
End OUTPUT.
