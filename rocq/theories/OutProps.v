(* Property theorems C63 to C67: the glossed output of every tree of the parser. *)
From Coq Require Import String Ascii List NArith ZArith Bool Arith.
From Verif Require Import Base TokData CmavoData TokModel TreeModel TreeOutModel ErasureProps GrammarData GramModel GramSpec GramProofs
  PassModel PassSpec ConnectModel ConnectSpec ConnectProofs OutModel OutSpec OutProofs3 OutProofs6 OutProofs7 OutProofs8 OutProofs9.
Import TransModel(tctx).
Import ListNotations.
Open Scope string_scope.
Open Scope list_scope.

(* ---- an example ---- *)
(* a small dictionary, and the properties that the passes leave *)
Definition ex_entries : list (string * string) :=
  [("mi", "I/me"); ("le", "the described"); ("ke'a", "(relative clause link)"); ("poi", "which"); ("gerku1", "dog"); ("melbi1", "beautiful");
   ("bajra1", "runs"); ("TFFF@GE", "both"); ("cimoi", "third"); ("pu", "before"); ("nai", "not"); ("punaizi@SELBRI", "not just now"); ("TFFF@GI", "and"); ("xi", "subscript"); ("pa", "1"); ("ui", "happiness");
   ("cai", "intense"); ("sai", "strong"); ("ru'e", "weak"); ("cu'i", "neutral"); ("ru'enai", "weak not"); ("sainai", "strong not");
   ("cainai", "intense not"); ("pei", "how"); ("peinai", "how not")].
Definition lookup (l : list (string * string)) (k : string) : option string :=
  match find (fun e => String.eqb (fst e) k) l with Some e => Some (snd e) | None => None end.
Definition ex_dict : string -> option string := lookup ex_entries.
Definition ex_adv (w : string) (n : Z) (c : tctx) : outcome string := Ok (w ++ " place")%string.
Definition ex_unk (w : string) (n : Z) (c : tctx) : outcome (option string) := Ok (Some ("?" ++ w))%string.
Definition peqb (p q : path) : bool := if list_eq_dec Nat.eq_dec p q then true else false.
Definition results {A} (o : outcome (list A)) : list A := match o with Ok l => l | _ => [] end.
Definition link_of (ws : list rwrite) (p : path) : option path :=
  match flat_map (fun w => match w with (q, RelLink r) => if peqb q p then [r] else [] | _ => [] end) ws with r :: _ => Some r | [] => None end.
Definition antecedent_of (ws : list rwrite) (p : path) : option path :=
  match flat_map (fun w => match w with (q, Antecedent r) => if peqb q p then [r] else [] | _ => [] end) ws with r :: _ => Some r | [] => None end.
Definition brac_of (ws : list rwrite) (p : path) : bool :=
  existsb (fun w => match w with (q, RequireBrac) => peqb q p | _ => false end) ws.
Definition ex_props (t : tree) (tags : list (path * list term_tag)) : props :=
  let T := expand_bahe_ui t in
  let ws := results (connectives_processing T) in
  let rs := results (relative_clause_processing T) in
  Props (fun _ => 0) (fun _ => false) (fun _ => None) (fun _ => None)
    (fun p => match find (fun e => peqb (fst e) p) (results (tense_processing T)) with Some e => Some (snd e) | None => None end)
    (fun _ => None) (fun _ => false) (connective_at ws) (fun p => match find (fun e => peqb (fst e) p) tags with Some e => snd e | None => [] end)
    (link_of rs) (antecedent_of rs).
Definition ex_rb (t : tree) : path -> bool := brac_of (results (relative_clause_processing (expand_bahe_ui t))).
(* the place of a word *)
Definition place (t : tree) (k : nat) : path := fst (nth k (leaves [] (expand_bahe_ui t)) ([], cm "mi")).

(* ge mi gi le gerku ku poi ke'a melbi ku'o cu bajra *)
Definition ex_out : tree :=
  NT "CHUNKS" [NT "TEXT" [NT "TEXT_1" [NT "PARAGRAPHS" [NT "PARAGRAPH" [NT "STATEMENT" [NT "INNER_STATEMENT" [NT
  "STATEMENT_1" [NT "STATEMENT_2" [NT "STATEMENT_3" [NT "SENTENCE" [NT "TERMS" [NT "TERMS_1" [NT "TERMS_2" [NT
  "TERM" [NT "TERM_PLAIN_SUMTI" [NT "SUMTI" [NT "SUMTI_1" [NT "SUMTI_2" [NT "SUMTI_3" [NT "SUMTI_4" [NT "GEK" [Leaf
  (cm "ge")]; NT "SUMTI" [NT "SUMTI_1" [NT "SUMTI_2" [NT "SUMTI_3" [NT "SUMTI_4" [NT "SUMTI_5" [NT "SUMTI_5A" [NT
  "SUMTI_6" [Leaf (cm "mi")]]]]]]]]; NT "GIK" [Leaf (cm "gi")]; NT "SUMTI_4" [NT "SUMTI_5" [NT "SUMTI_5A" [NT
  "SUMTI_6" [Leaf (cm "le"); NT "SUMTI_TAIL" [NT "SUMTI_TAIL_1" [NT "SUMTI_TAIL_1A" [NT "SELBRI" [NT "SELBRI_1" [NT
  "SELBRI_2" [NT "SELBRI_3" [NT "SELBRI_4" [NT "SELBRI_5" [NT "SELBRI_6" [NT "TANRU_UNIT" [NT "TANRU_UNIT_1" [NT
  "TANRU_UNIT_2" [Leaf (bv "gerku")]]]]]]]]]]]]]; Leaf (cm "ku")]]; NT "RELATIVE_CLAUSES" [NT "RELATIVE_CLAUSE_SEQ"
  [NT "RELATIVE_CLAUSE" [NT "FULL_RELATIVE_CLAUSE" [Leaf (cm "poi"); NT "SUBSENTENCE" [NT "SENTENCE" [NT
  "NO_CU_SENTENCE" [NT "TERMS" [NT "TERMS_1" [NT "TERMS_2" [NT "TERM" [NT "TERM_PLAIN_SUMTI" [NT "SUMTI" [NT
  "SUMTI_1" [NT "SUMTI_2" [NT "SUMTI_3" [NT "SUMTI_4" [NT "SUMTI_5" [NT "SUMTI_5A" [NT "SUMTI_6" [Leaf (cm
  "ke'a")]]]]]]]]]]]]]; NT "BRIDI_TAIL" [NT "BRIDI_TAIL_1" [NT "BRIDI_TAIL_2" [NT "BRIDI_TAIL_3" [NT "MAIN_SELBRI"
  [NT "SELBRI" [NT "SELBRI_1" [NT "SELBRI_2" [NT "SELBRI_3" [NT "SELBRI_4" [NT "SELBRI_5" [NT "SELBRI_6" [NT
  "TANRU_UNIT" [NT "TANRU_UNIT_1" [NT "TANRU_UNIT_2" [Leaf (bv "melbi")]]]]]]]]]]]]]]]]]]; Leaf (cm
  "ku'o")]]]]]]]]]]]]]]]]; Leaf (cm "cu"); NT "BRIDI_TAIL" [NT "BRIDI_TAIL_1" [NT "BRIDI_TAIL_2" [NT "BRIDI_TAIL_3"
  [NT "MAIN_SELBRI" [NT "SELBRI" [NT "SELBRI_1" [NT "SELBRI_2" [NT "SELBRI_3" [NT "SELBRI_4" [NT "SELBRI_5" [NT
  "SELBRI_6" [NT "TANRU_UNIT" [NT "TANRU_UNIT_1" [NT "TANRU_UNIT_2" [Leaf (bv "bajra")]]]]]]]]]]]]]]]]]]]]]]]]]].
Definition ex_tags : list (path * list term_tag) :=
  [(firstn 14 (place ex_out 0), [TTT_BRIVLA (place ex_out 11) 1])].
Definition ex_calls : outcome (list call) :=
  do_output ex_dict ex_adv ex_unk (ex_props ex_out ex_tags) (add_bracketing_tags (ex_rb ex_out) (expand_bahe_ui ex_out)).
(* without brackets of no kind and ends of lines *)
Definition visible (c : call) : bool := match c with Open BR_NONE _ | Close BR_NONE _ | Eols _ => false | _ => true end.
Example ex_out_parses : parse_tree ex_out.
Proof. apply parse_treeb_ok. vm_compute. reflexivity. Qed.
Example ex_out_calls : exists cs, ex_calls = Ok cs /\ filter visible cs =
  [Open BR_SQUARE 1; Open BR_ROUND 2; StartTags; StartTag; TagText "bajra" "1" "bajra place" true; EndTags;
   Open BR_CEIL 3; Loj "ge"; Eng "both"; Loj "mi"; Eng "I/me"; Loj "gi"; Eng "and";
   Open BR_CEIL 4; Open BR_CEIL 5; Loj "le"; Eng "the described"; Loj "gerku"; Eng "dog"; Loj "ku"; Close BR_CEIL 5;
   Open BR_ANGLE 6; Loj "poi"; Eng "which"; Open BR_SQUARE 7; Open BR_ROUND 8; Loj "ke'a"; Eng "(relative clause link) #5"; Close BR_ROUND 8;
   Eng "[is, does]"; Open BR_TRIANGLE 9; Loj "melbi"; Eng "beautiful"; Close BR_TRIANGLE 9; Close BR_SQUARE 7; Loj "ku'o"; Close BR_ANGLE 6;
   Close BR_CEIL 4; Close BR_CEIL 3; Close BR_ROUND 2; Loj "cu"; Open BR_TRIANGLE 10; Loj "bajra"; Eng "runs"; Close BR_TRIANGLE 10; Close BR_SQUARE 1].
Proof. eexists. split; vm_compute; reflexivity. Qed.

(* ---- C63 ---- *)
(* every word of the text is shown, once and in order *)
Theorem C63_words : forall translate adv_translate translate_unknown P rb t cs, parse_tree t ->
  do_output translate adv_translate translate_unknown P (add_bracketing_tags rb (expand_bahe_ui t)) = Ok cs ->
  shown_words cs = map (fun e => written (p_elidable P (fst e)) (snd e)) (leaves [] (expand_bahe_ui t)).
Proof. intros translate adv_translate translate_unknown P rb t cs PT. exact (out_words translate adv_translate translate_unknown P rb t PT cs). Qed.
Print Assumptions C63_words.

Example C63_case : parse_tree ex_out /\ exists cs, ex_calls = Ok cs /\
  shown_words cs = ["ge"; "mi"; "gi"; "le"; "gerku"; "ku"; "poi"; "ke'a"; "melbi"; "ku'o"; "cu"; "bajra"].
Proof. split; [exact ex_out_parses|]. eexists. split; vm_compute; reflexivity. Qed.

(* ---- C64 ---- *)
Theorem C64_nested : forall translate adv_translate translate_unknown P rb t cs, parse_tree t ->
  do_output translate adv_translate translate_unknown P (add_bracketing_tags rb (expand_bahe_ui t)) = Ok cs -> nested cs.
Proof. intros translate adv_translate translate_unknown P rb t cs PT. exact (out_nested translate adv_translate translate_unknown P rb t PT cs). Qed.
Print Assumptions C64_nested.

(* the brackets are numbered 1, 2, 3, ... in the order in which they are opened *)
Theorem C64_numbers : forall translate adv_translate translate_unknown P rb t cs, parse_tree t ->
  do_output translate adv_translate translate_unknown P (add_bracketing_tags rb (expand_bahe_ui t)) = Ok cs ->
  opened cs = seq 1 (List.length (opened cs)).
Proof. intros translate adv_translate translate_unknown P rb t cs PT. exact (out_numbers translate adv_translate translate_unknown P rb t PT cs). Qed.
Print Assumptions C64_numbers.

(* brackets enclose just the words of their part of the text *)
Theorem C64_enclosed : forall translate adv_translate translate_unknown P rb t cs q ty ch b, parse_tree t ->
  let T := expand_bahe_ui t in let text := fun e => written (p_elidable P (fst e)) (snd e) in
  do_output translate adv_translate translate_unknown P (add_bracketing_tags rb T) = Ok cs ->
  subtree T q = Some (NT ty ch) -> enclosed ty ch b ->
  exists n pre mid post L1 L2, n <> 0 /\ cs = pre ++ Open b n :: mid ++ Close b n :: post /\ nested mid /\
    leaves [] T = L1 ++ leaves q (NT ty ch) ++ L2 /\
    shown_words pre = map text L1 /\ shown_words mid = map text (leaves q (NT ty ch)) /\ shown_words post = map text L2.
Proof.
  intros translate adv_translate translate_unknown P rb t cs q ty ch b PT.
  exact (out_enclosed translate adv_translate translate_unknown P rb t PT cs q ty ch b).
Qed.
Print Assumptions C64_enclosed.

(* the labels of terms are complete and not mixed with other calls *)
Theorem C64_labelled : forall translate adv_translate translate_unknown P rb t cs,
  do_output translate adv_translate translate_unknown P (add_bracketing_tags rb (expand_bahe_ui t)) = Ok cs -> labelled cs.
Proof. exact out_labelled. Qed.
Print Assumptions C64_labelled.

Example C64_case : parse_tree ex_out /\ (exists cs, ex_calls = Ok cs /\ List.length (opened cs) = 10) /\
  exists ch, subtree (expand_bahe_ui ex_out) (firstn 14 (place ex_out 0)) = Some (NT "TERM" ch) /\ enclosed "TERM" ch BR_ROUND.
Proof.
  split; [exact ex_out_parses|]. split; [eexists; split; vm_compute; reflexivity|].
  eexists. split; [vm_compute; reflexivity|]. apply en_term. auto.
Qed.

(* ---- C65 ---- *)
(* a word outside connectives, simple tenses, numbers with moi and possessors is followed by its translation *)
Theorem C65_gloss : forall translate adv_translate translate_unknown P rb t cs p x, parse_tree t ->
  let T := expand_bahe_ui t in let top := add_bracketing_tags rb T in let text := fun e => written (p_elidable P (fst e)) (snd e) in
  do_output translate adv_translate translate_unknown P top = Ok cs -> subtree T p = Some (Leaf x) -> by_itself T p ->
  exists e pre post L1 L2, meaning translate adv_translate translate_unknown P (number top) p x e /\
    cs = pre ++ Loj (written (p_elidable P p) x) :: gloss_call e ++ Eols (p_eols P p) :: post /\
    leaves [] T = L1 ++ (p, x) :: L2 /\ shown_words pre = map text L1 /\ shown_words post = map text L2.
Proof.
  intros translate adv_translate translate_unknown P rb t cs p x PT.
  exact (out_gloss translate adv_translate translate_unknown P rb t PT cs p x).
Qed.
Print Assumptions C65_gloss.

Example C65_case : parse_tree ex_out /\ (exists cs, ex_calls = Ok cs) /\
  subtree (expand_bahe_ui ex_out) (place ex_out 4) = Some (Leaf (bv "gerku")) /\ by_itself (expand_bahe_ui ex_out) (place ex_out 4) /\
  meaning ex_dict ex_adv ex_unk (ex_props ex_out ex_tags) (number (add_bracketing_tags (ex_rb ex_out) (expand_bahe_ui ex_out)))
    (place ex_out 4) (bv "gerku") "dog".
Proof.
  split; [exact ex_out_parses|]. split; [eexists; vm_compute; reflexivity|]. split; [vm_compute; reflexivity|].
  split; [apply by_itselfb_ok; vm_compute; reflexivity|].
  refine (me_brivla _ _ _ _ _ _ _ "gerku" BVT_GISMU (Some "dog") _ _); [reflexivity|]. apply co_place; vm_compute; reflexivity.
Qed.

(* logical connectives are translated by their truth table and where they stand *)
Theorem C65_connective : forall translate adv_translate translate_unknown P rb t cs q ty ch pos pat, parse_tree t -> let T := expand_bahe_ui t in
  do_output translate adv_translate translate_unknown P (add_bracketing_tags rb T) = Ok cs ->
  subtree T q = Some (NT ty ch) -> by_itself T q -> In ty connective_kinds -> p_connective P q = Some (Logical pos pat) ->
  then_says P T cs q (NT ty ch) (said (translate (pat ++ stands pos)%string)).
Proof.
  intros translate adv_translate translate_unknown P rb t cs q ty ch pos pat PT.
  exact (out_connective translate adv_translate translate_unknown P rb t PT cs q ty ch pos pat).
Qed.
Print Assumptions C65_connective.

(* simple tenses, together if there is an entry, else word by word *)
Theorem C65_tense : forall translate adv_translate translate_unknown P rb t cs q ch, parse_tree t -> let T := expand_bahe_ui t in
  do_output translate adv_translate translate_unknown P (add_bracketing_tags rb T) = Ok cs ->
  subtree T q = Some (NT "TIME_OFFSET" ch) -> by_itself T q ->
  then_says P T cs q (NT "TIME_OFFSET" ch) (gloss_call (tense_gloss translate P q (NT "TIME_OFFSET" ch))).
Proof.
  intros translate adv_translate translate_unknown P rb t cs q ch PT.
  exact (out_tense translate adv_translate translate_unknown P rb t PT cs q ch).
Qed.
Print Assumptions C65_tense.

(* numbers with moi or roi, and the like, when there is an entry for all of it *)
Theorem C65_cluster : forall translate adv_translate translate_unknown P rb t cs q ty ch e, parse_tree t -> let T := expand_bahe_ui t in
  do_output translate adv_translate translate_unknown P (add_bracketing_tags rb T) = Ok cs ->
  subtree T q = Some (NT ty ch) -> by_itself T q -> In ty ["SPACE_INT_PROP"; "INTERVAL_PROPERTY"; "NUMBER_MOI_TU2"] ->
  in_situation translate P q (run_together (NT ty ch)) = Some e ->
  then_says P T cs q (NT ty ch) [Eng e].
Proof.
  intros translate adv_translate translate_unknown P rb t cs q ty ch e PT.
  exact (out_cluster translate adv_translate translate_unknown P rb t PT cs q ty ch e).
Qed.
Print Assumptions C65_cluster.

(* mi pu nai zi ci moi *)
Definition ex_groups : tree :=
  NT "CHUNKS" [NT "TEXT" [NT "TEXT_1" [NT "PARAGRAPHS" [NT "PARAGRAPH" [NT "STATEMENT" [NT "INNER_STATEMENT" [NT
  "STATEMENT_1" [NT "STATEMENT_2" [NT "STATEMENT_3" [NT "SENTENCE" [NT "NO_CU_SENTENCE" [NT "TERMS" [NT "TERMS_1"
  [NT "TERMS_2" [NT "TERM" [NT "TERM_PLAIN_SUMTI" [NT "SUMTI" [NT "SUMTI_1" [NT "SUMTI_2" [NT "SUMTI_3" [NT
  "SUMTI_4" [NT "SUMTI_5" [NT "SUMTI_5A" [NT "SUMTI_6" [Leaf (cm "mi")]]]]]]]]]]]]]; NT "BRIDI_TAIL" [NT
  "BRIDI_TAIL_1" [NT "BRIDI_TAIL_2" [NT "BRIDI_TAIL_3" [NT "MAIN_SELBRI" [NT "SELBRI" [NT "TAG" [NT "STAG" [NT
  "SIMPLE_TENSE_MODAL" [NT "TIME" [NT "TIME_OFFSET_SEQ" [NT "TIME_OFFSET" [Leaf (cm "pu"); Leaf (cm "nai"); Leaf (cm
  "zi")]]]]]]; NT "SELBRI_1" [NT "SELBRI_2" [NT "SELBRI_3" [NT "SELBRI_4" [NT "SELBRI_5" [NT "SELBRI_6" [NT
  "TANRU_UNIT" [NT "TANRU_UNIT_1" [NT "TANRU_UNIT_2" [NT "NUMBER_MOI_TU2" [NT "NUMBER" [NT "INNER_NUMBER" [Leaf (cm
  "ci")]]; Leaf (cm "moi")]]]]]]]]]]]]]]]]]]]]]]]]]]]].

Definition parent (p : path) : path := firstn (List.length p - 1) p.
Example C65_groups_case :
  (let T := expand_bahe_ui ex_out in exists ch, subtree T (parent (place ex_out 0)) = Some (NT "GEK" ch) /\ by_itself T (parent (place ex_out 0)) /\
     p_connective (ex_props ex_out ex_tags) (parent (place ex_out 0)) = Some (Logical CNP_GE "TFFF") /\ ex_dict ("TFFF" ++ stands CNP_GE) = Some "both") /\
  parse_tree ex_groups /\ let T := expand_bahe_ui ex_groups in let P := ex_props ex_groups [] in
  (exists cs, do_output ex_dict ex_adv ex_unk P (add_bracketing_tags (ex_rb ex_groups) T) = Ok cs /\
     filter (fun c => match c with Loj _ | Eng _ => true | _ => false end) cs =
     [Loj "mi"; Eng "I/me"; Eng "[is, does]"; Loj "pu"; Loj "nai"; Loj "zi"; Eng "not just now"; Loj "ci"; Loj "moi"; Eng "third"]) /\
  (exists ch, subtree T (parent (place ex_groups 1)) = Some (NT "TIME_OFFSET" ch) /\ by_itself T (parent (place ex_groups 1)) /\
     tense_gloss ex_dict P (parent (place ex_groups 1)) (NT "TIME_OFFSET" ch) = "not just now") /\
  exists ch, subtree T (parent (place ex_groups 5)) = Some (NT "NUMBER_MOI_TU2" ch) /\ by_itself T (parent (place ex_groups 5)) /\
    in_situation ex_dict P (parent (place ex_groups 5)) (run_together (NT "NUMBER_MOI_TU2" ch)) = Some "third".
Proof.
  split; [cbv zeta; eexists; split; [vm_compute; reflexivity|]; split; [apply by_itselfb_ok; vm_compute; reflexivity|]; split; vm_compute; reflexivity|].
  split; [apply parse_treeb_ok; vm_compute; reflexivity|]. cbv zeta. split; [eexists; split; vm_compute; reflexivity|].
  split; (eexists; split; [vm_compute; reflexivity|]; split; [apply by_itselfb_ok; vm_compute; reflexivity|vm_compute; reflexivity]).
Qed.

(* ge xi pa mi gi do klama *)
Definition ex_gek_free : tree :=
  NT "CHUNKS" [NT "TEXT" [NT "TEXT_1" [NT "PARAGRAPHS" [NT "PARAGRAPH" [NT "STATEMENT" [NT "INNER_STATEMENT" [NT
  "STATEMENT_1" [NT "STATEMENT_2" [NT "STATEMENT_3" [NT "SENTENCE" [NT "NO_CU_SENTENCE" [NT "TERMS" [NT "TERMS_1"
  [NT "TERMS_2" [NT "TERM" [NT "TERM_PLAIN_SUMTI" [NT "SUMTI" [NT "SUMTI_1" [NT "SUMTI_2" [NT "SUMTI_3" [NT
  "SUMTI_4" [NT "GEK" [Leaf (cm "ge"); NT "FREE_SEQ" [NT "FREE" [NT "SUBSCRIPT" [Leaf (cm "xi"); NT "NUMBER" [NT
  "INNER_NUMBER" [Leaf (cm "pa")]]]]]]; NT "SUMTI" [NT "SUMTI_1" [NT "SUMTI_2" [NT "SUMTI_3" [NT "SUMTI_4" [NT
  "SUMTI_5" [NT "SUMTI_5A" [NT "SUMTI_6" [Leaf (cm "mi")]]]]]]]]; NT "GIK" [Leaf (cm "gi")]; NT "SUMTI_4" [NT
  "SUMTI_5" [NT "SUMTI_5A" [NT "SUMTI_6" [Leaf (cm "do")]]]]]]]]]]]]]]; NT "BRIDI_TAIL" [NT "BRIDI_TAIL_1" [NT
  "BRIDI_TAIL_2" [NT "BRIDI_TAIL_3" [NT "MAIN_SELBRI" [NT "SELBRI" [NT "SELBRI_1" [NT "SELBRI_2" [NT "SELBRI_3" [NT
  "SELBRI_4" [NT "SELBRI_5" [NT "SELBRI_6" [NT "TANRU_UNIT" [NT "TANRU_UNIT_1" [NT "TANRU_UNIT_2" [Leaf (bv
  "klama")]]]]]]]]]]]]]]]]]]]]]]]]]]].

(* a subscript of a connective is shown without its translation *)
Theorem C65_free_refuted : exists t cs p x e, parse_tree t /\ let top := add_bracketing_tags (ex_rb t) (expand_bahe_ui t) in
  do_output ex_dict ex_adv ex_unk (ex_props t []) top = Ok cs /\ subtree (expand_bahe_ui t) p = Some (Leaf x) /\
  meaning ex_dict ex_adv ex_unk (ex_props t []) (number top) p x e /\ e <> "" /\
  In (Loj (written false x)) cs /\ ~ In (Eng e) cs.
Proof.
  exists ex_gek_free. eexists. exists (place ex_gek_free 1), (cm "xi"), "subscript".
  split; [apply parse_treeb_ok; vm_compute; reflexivity|]. split; [vm_compute; reflexivity|]. split; [vm_compute; reflexivity|].
  split; [|split; [discriminate|]].
  - replace "subscript" with (or_nothing (entry ex_dict (keys (ex_props ex_gek_free []) (place ex_gek_free 1) T_XI (cmavo_word (code_of "xi")))))
      by (vm_compute; reflexivity).
    apply me_cmavo with (f := false); [vm_compute; reflexivity|reflexivity|intros _; reflexivity|intro H; discriminate H].
  - replace (written false (cm "xi")) with "xi" by (vm_compute; reflexivity).
    split; [apply showsb_ok; vm_compute; reflexivity|]. intro H. apply saysb_iff in H. vm_compute in H. discriminate H.
Qed.
Print Assumptions C65_free_refuted.

(* ---- C66 ---- *)
(* with words, numbers and entries of an ordinary size the output is complete: no pass of the
   recursion fails, no buffer overflows, no null pointer or unset property is read *)
Theorem C66_complete : forall translate adv_translate translate_unknown P rb t ws, parse_tree t ->
  let T := expand_bahe_ui t in let top := add_bracketing_tags rb T in
  connectives_processing T = Ok ws -> (forall p, p_connective P p = connective_at ws p) ->
  ordinary translate adv_translate translate_unknown P (number top) T ->
  exists cs, do_output translate adv_translate translate_unknown P top = Ok cs.
Proof.
  intros translate adv_translate translate_unknown P rb t ws PT.
  exact (out_complete translate adv_translate translate_unknown P rb t PT ws).
Qed.
Print Assumptions C66_complete.

Example C66_case : parse_tree ex_out /\ exists ws, connectives_processing (expand_bahe_ui ex_out) = Ok ws /\ List.length ws = 2 /\
  (forall p, p_connective (ex_props ex_out ex_tags) p = connective_at ws p) /\
  ordinary ex_dict ex_adv ex_unk (ex_props ex_out ex_tags) (number (add_bracketing_tags (ex_rb ex_out) (expand_bahe_ui ex_out))) (expand_bahe_ui ex_out).
Proof.
  split; [exact ex_out_parses|]. eexists. split; [vm_compute; reflexivity|]. split; [reflexivity|]. split; [intro p; reflexivity|].
  assert (LEAF : forall p x, subtree (expand_bahe_ui ex_out) p = Some (Leaf x) ->
            match dat x with N_CMAVO s c _ => tok_eqb s T_NU = false | N_BRIVLA w _ => In w ["gerku"; "melbi"; "bajra"] | _ => False end /\
            N.leb (N.of_nat (String.length (written false x))) 10 = true).
  { intros p x E.
    assert (C := nodes_check (fun _ s => match s with
        | Leaf x => match dat x with N_CMAVO s c _ => negb (tok_eqb s T_NU) | N_BRIVLA w _ => existsb (String.eqb w) ["gerku"; "melbi"; "bajra"] | _ => false end &&
                    N.leb (N.of_nat (String.length (written false x))) 10
        | _ => true end) (expand_bahe_ui ex_out) p (Leaf x) ltac:(vm_compute; reflexivity) E).
    apply andb_true_iff in C. destruct C as [C1 C2]. split; [|exact C2]. destruct (dat x); try discriminate C1.
    - apply negb_true_iff. exact C1.
    - apply existsb_exists in C1. destruct C1 as (w' & I & Q). apply String.eqb_eq in Q. subst. exact I. }
  constructor.
  - intros k e H. unfold ex_dict, lookup in H. destruct (find _ ex_entries) as [[a b]|] eqn:F; [|discriminate H]. inversion H; subst.
    apply find_some in F. destruct F as [I _].
    assert (C : forallb (fun e => N.leb (N.of_nat (String.length (snd e))) 300) ex_entries = true) by (vm_compute; reflexivity).
    rewrite forallb_forall in C. apply C in I. apply N.leb_le in I. exact I.
  - intros []; vm_compute; discriminate.
  - intros p x E. apply LEAF in E. destruct E as [_ E]. apply N.leb_le in E. unfold short. cbn [p_elidable ex_props]. eapply N.le_trans; [exact E|]. discriminate.
  - intros p k ch E K. exfalso.
    assert (C := nodes_check (fun _ s => match s with
        | NT k _ => negb (existsb (String.eqb k) ["SPACE_INT_PROP"; "INTERVAL_PROPERTY"; "NUMBER_MOI_TU2"]) | _ => true end)
        (expand_bahe_ui ex_out) p (NT k ch) ltac:(vm_compute; reflexivity) E). cbn beta iota in C. rewrite K in C. discriminate C.
  - intros p x w E HP. apply LEAF in E. destruct E as [E _]. destruct HP as [w ty D|c f D|ys plus z D]; rewrite D in E; [|discriminate E|contradiction].
    destruct E as [<-|[<-|[<-|[]]]]; eexists; (split; [apply co_place; vm_compute; reflexivity|vm_compute; discriminate]).
  - intros p x ys plus z E D. apply LEAF in E. destruct E as [E _]. rewrite D in E. contradiction.
  - discriminate.
  - intros p k I. cbn [p_term_tags ex_props] in I. destruct (find _ ex_tags) as [e|] eqn:F; [|contradiction]. apply find_some in F. destruct F as [[<-|[]] _].
    destruct I as [<-|[]]. refine (tg_brivla _ _ _ _ (bv "bajra") "bajra" BVT_GISMU _ "bajra place" _ _ _); vm_compute; reflexivity.
  - intros p r a L A. exists 5. split; [|vm_compute; discriminate]. cbn [p_antecedent ex_props] in A.
    assert (Q : results (relative_clause_processing (expand_bahe_ui ex_out)) = results (relative_clause_processing (expand_bahe_ui ex_out))) by reflexivity.
    revert A. generalize r. clear. intros r A. unfold antecedent_of in A. set (rs := results (relative_clause_processing (expand_bahe_ui ex_out))) in A. vm_compute in rs. subst rs.
    cbn [flat_map] in A. repeat match goal with A : context [peqb ?q r] |- _ => destruct (peqb q r) end; cbn [app] in A; inversion A; subst; vm_compute; reflexivity.
Qed.

(* mi cusku zoi ... *)
Definition ex_quote (x : node) : tree :=
  NT "CHUNKS" [NT "TEXT" [NT "TEXT_1" [NT "PARAGRAPHS" [NT "PARAGRAPH" [NT "STATEMENT" [NT "INNER_STATEMENT" [NT
  "STATEMENT_1" [NT "STATEMENT_2" [NT "STATEMENT_3" [NT "SENTENCE" [NT "NO_CU_SENTENCE" [NT "TERMS" [NT "TERMS_1"
  [NT "TERMS_2" [NT "TERM" [NT "TERM_PLAIN_SUMTI" [NT "SUMTI" [NT "SUMTI_1" [NT "SUMTI_2" [NT "SUMTI_3" [NT
  "SUMTI_4" [NT "SUMTI_5" [NT "SUMTI_5A" [NT "SUMTI_6" [Leaf (cm "mi")]]]]]]]]]]]]]; NT "BRIDI_TAIL" [NT
  "BRIDI_TAIL_1" [NT "BRIDI_TAIL_2" [NT "BRIDI_TAIL_3" [NT "MAIN_SELBRI" [NT "SELBRI" [NT "SELBRI_1" [NT "SELBRI_2"
  [NT "SELBRI_3" [NT "SELBRI_4" [NT "SELBRI_5" [NT "SELBRI_6" [NT "TANRU_UNIT" [NT "TANRU_UNIT_1" [NT "TANRU_UNIT_2"
  [Leaf (bv "cusku")]]]]]]]]]]]; NT "TAIL_TERMS" [NT "TERMS" [NT "TERMS_1" [NT "TERMS_2" [NT "TERM" [NT
  "TERM_PLAIN_SUMTI" [NT "SUMTI" [NT "SUMTI_1" [NT "SUMTI_2" [NT "SUMTI_3" [NT "SUMTI_4" [NT "SUMTI_5" [NT
  "SUMTI_5A" [NT "SUMTI_6" [Leaf x]]]]]]]]]]]]]]]]]]]]]]]]]]]]]].

(* a quotation that is too long overflows a buffer *)
Theorem C66_quote_refuted : exists t, parse_tree t /\
  do_output ex_dict ex_adv ex_unk (ex_props t []) (add_bracketing_tags (ex_rb t) (expand_bahe_ui t)) = UB UB_bounds.
Proof.
  exists (ex_quote (Node (N_ZOI "zoi" "gy" (String.concat "" (repeat "aabbccddee" 110))) 1 1 None false None [])).
  split; [apply parse_treeb_ok|]; vm_compute; reflexivity.
Qed.
Print Assumptions C66_quote_refuted.

(* mi klama *)
Definition ex_attitude (x : node) : tree :=
  NT "CHUNKS" [NT "TEXT" [NT "TEXT_1" [NT "PARAGRAPHS" [NT "PARAGRAPH" [NT "STATEMENT" [NT "INNER_STATEMENT" [NT
  "STATEMENT_1" [NT "STATEMENT_2" [NT "STATEMENT_3" [NT "SENTENCE" [NT "NO_CU_SENTENCE" [NT "TERMS" [NT "TERMS_1"
  [NT "TERMS_2" [NT "TERM" [NT "TERM_PLAIN_SUMTI" [NT "SUMTI" [NT "SUMTI_1" [NT "SUMTI_2" [NT "SUMTI_3" [NT
  "SUMTI_4" [NT "SUMTI_5" [NT "SUMTI_5A" [NT "SUMTI_6" [Leaf x]]]]]]]]]]]]]; NT "BRIDI_TAIL" [NT
  "BRIDI_TAIL_1" [NT "BRIDI_TAIL_2" [NT "BRIDI_TAIL_3" [NT "MAIN_SELBRI" [NT "SELBRI" [NT "SELBRI_1" [NT "SELBRI_2"
  [NT "SELBRI_3" [NT "SELBRI_4" [NT "SELBRI_5" [NT "SELBRI_6" [NT "TANRU_UNIT" [NT "TANRU_UNIT_1" [NT "TANRU_UNIT_2"
  [Leaf (bv "klama")]]]]]]]]]]]]]]]]]]]]]]]]]]].

(* without an entry for cai a null pointer is read: mi .ui cai klama *)
Theorem C66_degree_refuted : exists t, parse_tree t /\
  do_output (lookup [("mi", "I/me"); ("ui", "happiness"); ("klama1", "comes")]) ex_adv ex_unk (ex_props t [])
    (add_bracketing_tags (ex_rb t) (expand_bahe_ui t)) = UB UB_null.
Proof.
  exists (ex_attitude (Node (dat (cm "mi")) 1 1 None false None [Node (dat (cm "ui")) 1 1 None false (Some CC_CAI) []])).
  split; [apply parse_treeb_ok|]; vm_compute; reflexivity.
Qed.
Print Assumptions C66_degree_refuted.

(* ---- C67 ---- *)
(* the number after ke'a is that of the brackets around what the relative clause is about *)
Theorem C67_keha : forall translate adv_translate translate_unknown P rb t ws cs p c f x r g j k b, parse_tree t ->
  let T := expand_bahe_ui t in let top := add_bracketing_tags rb T in let text := fun e => written (p_elidable P (fst e)) (snd e) in
  relative_clause_processing T = Ok ws -> (forall p r, In (p, RelLink r) ws -> p_rel_clause_link P p = Some r) ->
  (forall r a, In (r, Antecedent a) ws -> p_antecedent P r = Some a) -> (forall q, In (q, RequireBrac) ws -> rb q = true) ->
  do_output translate adv_translate translate_unknown P top = Ok cs ->
  subtree T p = Some (Leaf x) -> dat x = N_CMAVO T_KOhA c f -> cmavo_word c = "ke'a" -> by_itself T p ->
  innermost "RELATIVE_CLAUSE" T p r -> group T r g j k -> about k j b -> k <> "SUMTI_TAIL" ->
  exists n s, n <> 0 /\ subtree T (extend g b) = Some s /\
    (exists pre mid post, cs = pre ++ Open BR_CEIL n :: mid ++ Close BR_CEIL n :: post /\
       shown_words mid = map text (leaves (extend g b) s)) /\
    exists pre post, cs = pre ++ Loj (written (p_elidable P p) x) ::
      Eng (or_nothing (translate "ke'a") ++ " #" ++ TransModel.zdec (Z.of_nat n)) :: Eols (p_eols P p) :: post.
Proof.
  intros translate adv_translate translate_unknown P rb t ws cs p c f x r g j k b PT T top text RW RL RA RB.
  exact (out_keha translate adv_translate translate_unknown P rb t PT ws RW RL RA RB cs p c f x r g j k b).
Qed.
Print Assumptions C67_keha.

(* the example above meets the hypotheses: ke'a in the clause about le gerku ku *)
Example C67_case : let T := expand_bahe_ui ex_out in let P := ex_props ex_out ex_tags in
  exists ws r g j, relative_clause_processing T = Ok ws /\ (forall p r, In (p, RelLink r) ws -> p_rel_clause_link P p = Some r) /\
    (forall r a, In (r, Antecedent a) ws -> p_antecedent P r = Some a) /\ (forall q, In (q, RequireBrac) ws -> ex_rb ex_out q = true) /\
    subtree T (place ex_out 7) = Some (Leaf (cm "ke'a")) /\ by_itself T (place ex_out 7) /\
    innermost "RELATIVE_CLAUSE" T (place ex_out 7) r /\ group T r g j "SUMTI_5" /\ about "SUMTI_5" j (Some 0).
Proof.
  cbv zeta. eexists. exists (firstn 25 (place ex_out 7)), (firstn 22 (place ex_out 7)), 1.
  split; [vm_compute; reflexivity|].
  split; [intros p r I; cbn [In] in I; repeat destruct I as [I|I]; try discriminate I; try contradiction; injection I as <- <-; vm_compute; reflexivity|].
  split; [intros p r I; cbn [In] in I; repeat destruct I as [I|I]; try discriminate I; try contradiction; injection I as <- <-; vm_compute; reflexivity|].
  split; [intros p I; cbn [In] in I; repeat destruct I as [I|I]; try discriminate I; try contradiction; injection I as <-; vm_compute; reflexivity|].
  split; [vm_compute; reflexivity|]. split; [apply by_itselfb_ok; vm_compute; reflexivity|].
  split; [apply innermostb_ok; vm_compute; reflexivity|]. split.
  - split; [|eexists; vm_compute; reflexivity].
    replace (firstn 22 (place ex_out 7) ++ [1]) with (firstn 23 (firstn 25 (place ex_out 7))) by (vm_compute; reflexivity).
    apply innermostb_ok. vm_compute. reflexivity.
  - apply (ab_after "SUMTI_5" 1 0); auto.
Qed.

(* le mi poi ke'a melbi ku'o gerku ku bajra *)
Definition ex_possessor : tree :=
  NT "CHUNKS" [NT "TEXT" [NT "TEXT_1" [NT "PARAGRAPHS" [NT "PARAGRAPH" [NT "STATEMENT" [NT "INNER_STATEMENT" [NT
  "STATEMENT_1" [NT "STATEMENT_2" [NT "STATEMENT_3" [NT "SENTENCE" [NT "NO_CU_SENTENCE" [NT "TERMS" [NT "TERMS_1"
  [NT "TERMS_2" [NT "TERM" [NT "TERM_PLAIN_SUMTI" [NT "SUMTI" [NT "SUMTI_1" [NT "SUMTI_2" [NT "SUMTI_3" [NT
  "SUMTI_4" [NT "SUMTI_5" [NT "SUMTI_5A" [NT "SUMTI_6" [Leaf (cm "le"); NT "SUMTI_TAIL" [NT "SUMTI_6" [Leaf (cm
  "mi")]; NT "RELATIVE_CLAUSES" [NT "RELATIVE_CLAUSE_SEQ" [NT "RELATIVE_CLAUSE" [NT "FULL_RELATIVE_CLAUSE" [Leaf (cm
  "poi"); NT "SUBSENTENCE" [NT "SENTENCE" [NT "NO_CU_SENTENCE" [NT "TERMS" [NT "TERMS_1" [NT "TERMS_2" [NT "TERM"
  [NT "TERM_PLAIN_SUMTI" [NT "SUMTI" [NT "SUMTI_1" [NT "SUMTI_2" [NT "SUMTI_3" [NT "SUMTI_4" [NT "SUMTI_5" [NT
  "SUMTI_5A" [NT "SUMTI_6" [Leaf (cm "ke'a")]]]]]]]]]]]]]; NT "BRIDI_TAIL" [NT "BRIDI_TAIL_1" [NT "BRIDI_TAIL_2" [NT
  "BRIDI_TAIL_3" [NT "MAIN_SELBRI" [NT "SELBRI" [NT "SELBRI_1" [NT "SELBRI_2" [NT "SELBRI_3" [NT "SELBRI_4" [NT
  "SELBRI_5" [NT "SELBRI_6" [NT "TANRU_UNIT" [NT "TANRU_UNIT_1" [NT "TANRU_UNIT_2" [Leaf (bv
  "melbi")]]]]]]]]]]]]]]]]]]; Leaf (cm "ku'o")]]]]; NT "SUMTI_TAIL_1" [NT "SUMTI_TAIL_1A" [NT "SELBRI" [NT
  "SELBRI_1" [NT "SELBRI_2" [NT "SELBRI_3" [NT "SELBRI_4" [NT "SELBRI_5" [NT "SELBRI_6" [NT "TANRU_UNIT" [NT
  "TANRU_UNIT_1" [NT "TANRU_UNIT_2" [Leaf (bv "gerku")]]]]]]]]]]]]]; Leaf (cm "ku")]]]]]]]]]]]]]; NT "BRIDI_TAIL"
  [NT "BRIDI_TAIL_1" [NT "BRIDI_TAIL_2" [NT "BRIDI_TAIL_3" [NT "MAIN_SELBRI" [NT "SELBRI" [NT "SELBRI_1" [NT
  "SELBRI_2" [NT "SELBRI_3" [NT "SELBRI_4" [NT "SELBRI_5" [NT "SELBRI_6" [NT "TANRU_UNIT" [NT "TANRU_UNIT_1" [NT
  "TANRU_UNIT_2" [Leaf (bv "bajra")]]]]]]]]]]]]]]]]]]]]]]]]]]].

(* what a possessor with a relative clause is referred to by is no number of brackets *)
Theorem C67_possessor_refuted : exists t cs, parse_tree t /\
  do_output ex_dict ex_adv ex_unk (ex_props t []) (add_bracketing_tags (ex_rb t) (expand_bahe_ui t)) = Ok cs /\
  In (Eng "(relative clause link) #0") cs.
Proof.
  exists ex_possessor. eexists. split; [apply parse_treeb_ok; vm_compute; reflexivity|]. split; [vm_compute; reflexivity|].
  apply saysb_iff. vm_compute. reflexivity.
Qed.
Print Assumptions C67_possessor_refuted.
