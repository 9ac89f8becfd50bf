(* What the glossed output has to show: the words in order, brackets around parts of the
   text, labels on the terms. *)
From Coq Require Import String Ascii List NArith ZArith Bool Arith.
From Verif Require Import Base TokData CmavoData TokModel TreeModel TreeOutModel OutModel.
Import ListNotations.
Open Scope string_scope.
Open Scope list_scope.

(* ---- words ---- *)

(* a pause is written in front of a vowel *)
Definition vowel (c : ascii) : bool := match c with "a" | "e" | "i" | "o" | "u" => true | _ => false end%char.
Definition paused (s : string) : string :=
  match s with String c _ => if vowel c then String "." s else s | "" => "." end.
Definition degree (k : option caicode) : string :=
  match k with
  | None => ""
  | Some CC_CAI => " cai" | Some CC_SAI => " sai" | Some CC_RUhE => " ru'e" | Some CC_CUhI => " cu'i"
  | Some CC_RUhENAI => " ru'enai" | Some CC_SAINAI => " sainai" | Some CC_CAINAI => " cainai"
  | Some CC_PEI => " pei" | Some CC_PEINAI => " peinai"
  end.
(* how a word of the text is written; a word that the parser supplied is in capitals *)
Definition written (supplied : bool) (x : node) : string :=
  match dat x with
  | N_CMAVO s c _ =>
      if tok_eqb s T_UI || tok_eqb s T_CAI then paused (cmavo_word c ++ (if neg x then "nai" else "") ++ degree (cai x))
      else paused (if supplied then make_uppercase (cmavo_word c) else cmavo_word c)
  | N_ZOI form term text => paused (form ++ " " ++ term ++ " " ++ text ++ " " ++ term)
  | N_ZO text => "zo " ++ text
  | N_ZEI _ _ z => z
  | N_LOhU text => "lo'u " ++ text ++ " le'u"
  | N_BU w => paused (w ++ ".bu")
  | N_BRIVLA w _ => paused w
  | N_CMENE w => paused w ++ "."
  | _ => ""
  end%string.
(* the words of a tree with their places, in order *)
Fixpoint leaves (p : path) (t : tree) : list (path * node) :=
  match t with
  | Leaf x => [(p, x)]
  | NT _ ch =>
      (fix go (i : nat) (l : list tree) : list (path * node) :=
         match l with [] => [] | c :: l => leaves (p ++ [i]) c ++ go (S i) l end) 0 ch
  end.

(* the words shown by a sequence of calls *)
Definition shown_words (cs : list call) : list string :=
  flat_map (fun c => match c with Loj s => [s] | _ => [] end) cs.

(* ---- brackets ---- *)

Definition is_bracket (c : call) : bool := match c with Open _ _ | Close _ _ => true | _ => false end.
(* every bracket is closed by one of the same kind and number, and they are nested *)
Inductive nested : list call -> Prop :=
| ne_nil : nested []
| ne_call c l : is_bracket c = false -> nested l -> nested (c :: l)
| ne_pair b n l l' : nested l -> nested l' -> nested (Open b n :: l ++ Close b n :: l').
(* the numbers of the brackets that are opened *)
Definition opened (cs : list call) : list nat :=
  flat_map (fun c => match c with Open BR_NONE _ => [] | Open _ n => [n] | _ => [] end) cs.

(* ---- labels of terms ---- *)

(* nothing that belongs inside a label *)
Definition plain_call (c : call) : bool :=
  match c with Open _ _ | Close _ _ | Eols _ | Loj _ | Eng _ => true | _ => false end.
Definition label_call (c : call) : bool :=
  match c with Eols _ | TagText _ _ _ _ | Partial _ => true | _ => false end.
(* one label after the other, each begun by StartTag *)
Inductive labels : list call -> Prop :=
| la_nil : labels []
| la_one l l' : forallb label_call l = true -> labels l' -> labels (StartTag :: l ++ l').
Inductive labelled : list call -> Prop :=
| lb_nil : labelled []
| lb_plain c l : plain_call c = true -> labelled l -> labelled (c :: l)
| lb_tags l l' : labels l -> l <> [] -> labelled l' -> labelled (StartTags :: l ++ EndTags :: l').

(* ---- translations ---- *)

Section MEANING.
  Local Open Scope string_scope.
  Variable translate : string -> option string.
  Variable adv_translate : string -> Z -> TransModel.tctx -> outcome string.
  Variable translate_unknown : string -> Z -> TransModel.tctx -> outcome (option string).
  Variable P : props.
  (* the number of the brackets around the node at a path *)
  Variable number : path -> option nat.

  (* the first of some keys that the dictionary has *)
  Fixpoint entry (keys : list string) : option string :=
    match keys with [] => None | k :: l => match translate k with Some e => Some e | None => entry l end end.
  Definition or_nothing (o : option string) : string := match o with Some e => e | None => "" end.

  (* entries for a use of a word *)
  Definition situation (c : PassModel.tense_ctx) : string :=
    match c with
    | PassModel.TSC_OTHER => "" | PassModel.TSC_SELBRI => "@SELBRI" | PassModel.TSC_TERM => "@TERM" | PassModel.TSC_NOUN => "@NOUN"
    | PassModel.TSC_LINK => "@LINK" | PassModel.TSC_CONNECT => "@CONNECT" | PassModel.TSC_JAITAG => "@JAI"
    end.
  Definition keys (p : path) (s : tok) (w : string) : list string :=
    List.app
    (if existsb (tok_eqb s) [T_PU; T_ZAhO; T_VA; T_FAhA] then
       match p_tense_ctx P p with Some c => [w ++ situation c] | None => [] end
     else if tok_eqb s T_JAI then
       [w ++ match p_glosstype P p with Some (true, true) => "_v" | Some (false, true) => "_n" | _ => "_a" end]
     else []) [w].

  (* the place of the word that comes first, after se, te, ... *)
  Definition first_place (p : path) : nat := match p_conversion P p with Some c => c | None => 1 end.
  Definition role (in_selbri is_tertau : bool) : TransModel.tctx :=
    match in_selbri, is_tertau with
    | true, true => TransModel.TCX_VERB | false, true => TransModel.TCX_NOUN | _, false => TransModel.TCX_QUAL
    end.
  (* a word with places *)
  Inductive content (p : path) (w : string) : option string -> Prop :=
  | co_role sel ter e : p_glosstype P p = Some (sel, ter) ->
      adv_translate w (Z.of_nat (first_place p)) (role sel ter) = Ok e -> content p w (Some e)
  | co_place e : p_glosstype P p = None -> translate (w ++ TransModel.zdec (Z.of_nat (first_place p))) = Some e -> content p w (Some e)
  | co_word e : p_glosstype P p = None -> translate (w ++ TransModel.zdec (Z.of_nat (first_place p))) = None ->
      translate w = Some e ->
      content p w (Some (e ++ match p_conversion P p with Some _ => " (CONV?)" | None => "" end)%string)
  | co_new o : p_glosstype P p = None -> translate (w ++ TransModel.zdec (Z.of_nat (first_place p))) = None ->
      translate w = None -> translate_unknown w (Z.of_nat (first_place p)) TransModel.TCX_NOUN = Ok o -> content p w o.
  Definition converted (p : path) : string :=
    match p_bai_conversion P p with Some 2 => "se" | Some 3 => "te" | Some 4 => "ve" | Some 5 => "xe" | _ => "" end.

  Inductive meaning (p : path) (x : node) : string -> Prop :=
  | me_name w : dat x = N_CMENE w -> meaning p x "[NAME]"
  | me_brivla w ty o : dat x = N_BRIVLA w ty -> content p w o -> meaning p x (or_nothing o)
  | me_nu c f o : dat x = N_CMAVO T_NU c f -> content p (cmavo_word c) o -> meaning p x (or_nothing o)
  | me_indicator s c f : dat x = N_CMAVO s c f -> s = T_UI \/ s = T_CAI ->
      translate (cmavo_word c ++ if neg x then "nai" else "") = None -> meaning p x ""
  | me_attitude s c f e k : dat x = N_CMAVO s c f -> s = T_UI \/ s = T_CAI ->
      translate (cmavo_word c ++ if neg x then "nai" else "") = Some e ->
      match cai x with
      | None => k = ""
      | Some d => exists i, translate (substring 1 10 (degree (Some d))) = Some i /\ k = (i ++ " ")%string
      end ->
      meaning p x ("{" ++ k ++ e ++ "..}")
  | me_modal c f e : dat x = N_CMAVO T_BAI c f ->
      translate (converted p ++ cmavo_word c ++ match p_tense_ctx P p with Some PassModel.TSC_JAITAG => "@JAI" | _ => "" end) = Some e ->
      meaning p x e
  | me_modal' c f : dat x = N_CMAVO T_BAI c f ->
      translate (converted p ++ cmavo_word c ++ match p_tense_ctx P p with Some PassModel.TSC_JAITAG => "@JAI" | _ => "" end) = None ->
      meaning p x (match translate (cmavo_word c) with Some e => e ++ " (CONV?)" | None => "?" end)
  | me_left_out s c f : dat x = N_CMAVO s c f -> s = T_SE \/ s = T_GOI -> p_dont_gloss P p = true -> meaning p x ""
  | me_keha c f r a n : dat x = N_CMAVO T_KOhA c f -> cmavo_word c = "ke'a" -> p_rel_clause_link P p = Some r ->
      p_antecedent P r = Some a -> number a = Some n ->
      meaning p x (or_nothing (translate "ke'a") ++ " #" ++ TransModel.zdec (Z.of_nat n))
  | me_cmavo s c f : dat x = N_CMAVO s c f ->
      existsb (tok_eqb s) [T_UI; T_CAI; T_BAI; T_NU] = false ->
      (s = T_SE \/ s = T_GOI -> p_dont_gloss P p = false) ->
      (s = T_KOhA -> cmavo_word c = "ke'a" -> forall r, p_rel_clause_link P p = Some r -> p_antecedent P r = None) ->
      meaning p x (or_nothing (entry (keys p s (cmavo_word c))))
  | me_quote form term text : dat x = N_ZOI form term text -> meaning p x (match translate text with Some e => e | None => "?" end)
  | me_words text : dat x = N_LOhU text -> meaning p x (match translate text with Some e => e | None => "?" end)
  | me_word text : dat x = N_ZO text -> meaning p x ("""" ++ match translate text with Some e => e | None => "?" end ++ """")
  | me_letter w : dat x = N_BU w -> meaning p x (match translate (w ++ ".bu") with Some e => e | None => "?" end)
  | me_zei ys plus z e : dat x = N_ZEI ys plus z -> content p plus (Some e) -> prefix "?" e = false -> meaning p x e
  | me_parts ys plus z o ws : dat x = N_ZEI ys plus z -> content p plus o -> (forall e, o = Some e -> prefix "?" e = true) ->
      Forall2 (fun y s => exists w, build_string_from_node y = Ok w /\
                 s = match translate w with Some e => e | None => "?" end) ys ws ->
      meaning p x (String.concat " type-of " ws).
End MEANING.

(* connectives, simple tenses, numbers with moi, ... are translated as a whole *)
Definition as_a_whole (k : string) : bool :=
  existsb (String.eqb k) ["JEK"; "JEK_OPT_KE"; "JEK_OPT_KEBO"; "EK"; "GIHEK"; "GEK"; "GIK"; "GUHEK"; "TIME_OFFSET";
    "SPACE_INT_PROP"; "INTERVAL_PROPERTY"; "NUMBER_MOI_TU2"].
(* the possessor in a description is shown before and translated after what it owns *)
Definition possessor (k : string) (ch : list tree) (i : nat) : Prop :=
  k = "SUMTI_TAIL" /\ i = 0 /\ exists cc, nth_error ch 0 = Some (NT "SUMTI_6" cc).
(* no such node is around a place *)
Definition by_itself (t : tree) (p : path) : Prop :=
  forall q i r k ch, p = q ++ i :: r -> subtree t q = Some (NT k ch) -> as_a_whole k = false /\ ~ possessor k ch i.

(* ---- texts and dictionaries of an ordinary size ---- *)

Definition short (s : string) : Prop := (N.of_nat (String.length s) <= 1000)%N.
Definition percent_free (s : string) : bool := forallb (fun c => negb (Ascii.eqb c "%"%char)) (list_ascii_of_string s).
(* a translation with a place for a number *)
Inductive template : string -> nat -> string -> Prop :=
| tm_plain s n : percent_free s = true -> template s n s
| tm_number a b n : percent_free a = true -> percent_free b = true ->
    template (a ++ "%d" ++ b)%string n (a ++ TransModel.zdec (Z.of_nat n) ++ b)%string.

Section ORDINARY.
  Variable translate : string -> option string.
  Variable adv_translate : string -> Z -> TransModel.tctx -> outcome string.
  Variable translate_unknown : string -> Z -> TransModel.tctx -> outcome (option string).
  Variable P : props.
  Variable number : path -> option nat.
  Variable t : tree.

  (* what the parts of a label refer to *)
  Inductive tag_ok : term_tag -> Prop :=
  | tg_brivla q x w ty pos e : subtree t q = Some (Leaf x) -> dat x = N_BRIVLA w ty ->
      adv_translate w pos TransModel.TCX_TAG = Ok e -> tag_ok (TTT_BRIVLA q pos)
  | tg_jai tag cc tu2 n pos : subtree t tag = Some (NT "TAG" cc) -> number tu2 = Some n -> tag_ok (TTT_JAITAG tag tu2 pos)
  | tg_nu q x s c f pos e : subtree t q = Some (Leaf x) -> dat x = N_CMAVO s c f ->
      adv_translate (cmavo_word c) pos TransModel.TCX_TAG = Ok e -> tag_ok (TTT_ABSTRACTION q pos)
  | tg_me q n pos e s : number q = Some n -> adv_translate "me" pos TransModel.TCX_TAG = Ok e -> template e n s -> short s -> tag_ok (TTT_ME q pos)
  | tg_moi q n r x k c f pos e s : number q = Some n -> subtree t r = Some (Leaf x) -> dat x = N_CMAVO k c f ->
      adv_translate (cmavo_word c) pos TransModel.TCX_TAG = Ok e -> template e n s -> short s -> tag_ok (TTT_NUMBERMOI q r pos)
  | tg_goha q x s c f pos : subtree t q = Some (Leaf x) -> dat x = N_CMAVO s c f -> tag_ok (TTT_GOhA q pos)
  | tg_nuha q n pos : number q = Some n -> tag_ok (TTT_NUhA q pos)
  | tg_zei q x ys plus z pos e : subtree t q = Some (Leaf x) -> dat x = N_ZEI ys plus z ->
      adv_translate plus pos TransModel.TCX_TAG = Ok e -> tag_ok (TTT_ZEI q pos).

  (* a word with places *)
  Inductive has_places (x : node) : string -> Prop :=
  | hp_brivla w ty : dat x = N_BRIVLA w ty -> has_places x w
  | hp_nu c f : dat x = N_CMAVO T_NU c f -> has_places x (cmavo_word c)
  | hp_zei ys plus z : dat x = N_ZEI ys plus z -> has_places x plus.

  Record ordinary : Prop := Ordinary {
    (* entries have at most 300 characters, and there is one for each degree *)
    or_entry : forall k e, translate k = Some e -> (N.of_nat (String.length e) <= 300)%N;
    or_degree : forall d, translate (substring 1 10 (degree (Some d))) <> None;
    (* words have at most 1000 characters, and so have numbers *)
    or_word : forall p x, subtree t p = Some (Leaf x) -> short (written (p_elidable P p) x);
    or_number : forall p k ch, subtree t p = Some (NT k ch) ->
      existsb (String.eqb k) ["SPACE_INT_PROP"; "INTERVAL_PROPERTY"; "NUMBER_MOI_TU2"] = true ->
      short (String.concat "" (map (fun e => written false (snd e)) (leaves p (NT k ch))));
    (* words with places have a short translation *)
    or_content : forall p x w, subtree t p = Some (Leaf x) -> has_places x w ->
      exists o, content translate adv_translate translate_unknown P p w o /\ short (or_nothing o);
    or_parts : forall p x ys plus z, subtree t p = Some (Leaf x) -> dat x = N_ZEI ys plus z ->
      exists ws, Forall2 (fun y s => exists w, build_string_from_node y = Ok w /\
                   s = match translate w with Some e => e | None => "?" end) ys ws /\ short (String.concat " type-of " ws);
    (* what the passes before leave *)
    or_bai : forall p c, p_bai_conversion P p = Some c -> 1 <= c <= 5;
    or_tags : forall p k, In k (p_term_tags P p) -> tag_ok k;
    or_keha : forall p r a, p_rel_clause_link P p = Some r -> p_antecedent P r = Some a ->
      exists n, number a = Some n /\
        (N.of_nat (String.length (TransModel.zdec (Z.of_nat n))) <= 100)%N
  }.
End ORDINARY.

(* the number of the brackets of a node *)
Definition number (top : atree) (q : path) : option nat :=
  match asub top q with Some (ANT _ _ n _) => Some n | _ => None end.
(* the call for a translation; nothing is called for the empty text *)
Definition gloss_call (e : string) : list call := match e with "" => [] | _ => [Eng e] end.
(* the parts of a text that always have brackets around them *)
Inductive enclosed (ty : string) (ch : list tree) : bracket -> Prop :=
| en_term : ty = "TERM" \/ ty = "FREE" -> enclosed ty ch BR_ROUND
| en_sentence : ty = "SENTENCE" \/ ty = "FRAGMENT" -> enclosed ty ch BR_SQUARE
| en_main : ty = "MAIN_SELBRI" \/ ty = "METALINGUISTIC_MAIN_SELBRI" -> enclosed ty ch BR_TRIANGLE
| en_clause : ty = "RELATIVE_CLAUSE" \/ ty = "ABSTRACTION" -> enclosed ty ch BR_ANGLE
| en_sumti : In ty ["SUMTI"; "SUMTI_1"; "SUMTI_2"; "SUMTI_3"; "SUMTI_4"; "SUMTI_5"] -> 2 <= List.length ch -> enclosed ty ch BR_CEIL
| en_selbri : In ty ["SELBRI_1"; "SELBRI_2"; "SELBRI_3"; "SELBRI_4"; "SELBRI_5"; "SELBRI_6"] -> 2 <= List.length ch -> enclosed ty ch BR_FLOOR
| en_tanru : ty = "TANRU_UNIT_1" -> 2 <= List.length ch -> enclosed ty ch BR_BRACE.

(* ---- groups of words that are translated as a whole ---- *)

(* the connectives *)
Definition connective_kinds : list string := ["JEK"; "JEK_OPT_KE"; "JEK_OPT_KEBO"; "EK"; "GIHEK"; "GEK"; "GIK"; "GUHEK"].
(* entries for a logical connective: the truth table and where it stands *)
Definition stands (c : ConnectModel.cnp) : string :=
  match c with ConnectModel.CNP_AFTER => "@AFTER" | ConnectModel.CNP_GE => "@GE" | ConnectModel.CNP_GI => "@GI" | _ => "" end.
(* the small words of a group, without indicators and emphasis *)
Definition bare_word (x : node) : string :=
  match dat x with
  | N_CMAVO s c _ => if existsb (tok_eqb s) [T_UI; T_BAhE; T_DAhO; T_Y; T_FUhO] then "" else cmavo_word c
  | N_BU w => w
  | _ => ""
  end.
Definition run_together (t : tree) : string := String.concat "" (map (fun e => bare_word (snd e)) (leaves [] t)).
(* the first word of a selma'o *)
Definition first_of (s : tok) (t : tree) : option string :=
  match find (fun e => match dat (snd e) with N_CMAVO s' _ _ => tok_eqb s' s | _ => false end) (leaves [] t) with
  | Some (_, x) => match dat x with N_CMAVO _ c _ => Some (cmavo_word c) | _ => None end
  | None => None
  end.
Section GROUP.
  Local Open Scope string_scope.
  Variable translate : string -> option string.
  Variable P : props.
  (* the entry for a use of a group *)
  Definition in_situation (p : path) (w : string) : option string :=
    entry translate [w ++ match p_tense_ctx P p with Some c => situation c | None => "" end; w].
  (* a simple tense: pu, nai and zi together, or one at a time *)
  Definition tense_gloss (p : path) (t : tree) : string :=
    match p_tense_ctx P p with
    | None => ""
    | Some _ =>
        let pu := or_nothing (first_of T_PU t) in
        let known w := match translate w with Some e => e | None => "?" end in
        let more o := match o with Some w => " " ++ known w | None => "" end in
        match in_situation p (pu ++ or_nothing (first_of T_NAI t) ++ or_nothing (first_of T_ZI t)) with
        | Some e => e
        | None => known pu ++ more (first_of T_NAI t) ++ more (first_of T_ZI t)
        end
    end.
End GROUP.

(* the words of a part of the text are followed by some calls before any other word *)
Definition then_says (P : props) (T : tree) (cs : list call) (q : path) (s : tree) (gl : list call) : Prop :=
  let text := fun e : path * node => written (p_elidable P (fst e)) (snd e) in
  exists pre mid post L1 L2, cs = pre ++ mid ++ gl ++ post /\ leaves [] T = L1 ++ leaves q s ++ L2 /\
    shown_words pre = map text L1 /\ shown_words mid = map text (leaves q s) /\ shown_words post = map text L2.
Definition said (o : option string) : list call := match o with Some e => [Eng e] | None => [] end.
