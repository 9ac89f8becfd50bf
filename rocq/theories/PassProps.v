(* Property theorems C60 to C62: tenses, relative clauses, incomplete sentences, for
   every tree of the parser. *)
From Coq Require Import String List NArith Bool Arith.
From Verif Require Import Base TokData CmavoData TokModel TreeModel TreeOutModel ErasureProps GrammarData GramModel GramSpec GramProofs
  PassModel PassSpec PassProofs PassProofs2 PassProofs3.
Import ListNotations.
Open Scope string_scope.
Open Scope list_scope.

(* ---- C60 ---- *)
(* the pass ends for every tree of the parser, without abort or null pointer, and this is
   all it writes *)
Theorem C60_contexts : forall t, parse_tree t -> let T := expand_bahe_ui t in
  exists ws, tense_processing T = Ok ws /\
    forall p c, In (p, c) ws <-> exists s, subtree T p = Some s /\ tense_place s /\
      (if free_after (around T p) then None else if tag_in_jai (around T p) then Some TSC_JAITAG else tense_role (around T p)) = Some c.
Proof. exact tenses_tree. Qed.
Print Assumptions C60_contexts.

(* apart from two cases the context is that of the grammatical role *)
Theorem C60_role : forall t ws p s c, parse_tree t -> tense_processing (expand_bahe_ui t) = Ok ws ->
  subtree (expand_bahe_ui t) p = Some s -> tense_place s ->
  free_after (around (expand_bahe_ui t) p) = false -> tag_in_jai (around (expand_bahe_ui t) p) = false ->
  In (p, c) ws <-> tense_role (around (expand_bahe_ui t) p) = Some c.
Proof. exact tenses_role. Qed.
Print Assumptions C60_role.

(* mi ba'e pu klama le ba zarci ca do *)
Definition ex_tenses : tree :=
  NT "CHUNKS" [NT "TEXT" [NT "TEXT_1" [NT "PARAGRAPHS" [NT "PARAGRAPH" [NT "STATEMENT" [NT "INNER_STATEMENT" [NT
  "STATEMENT_1" [NT "STATEMENT_2" [NT "STATEMENT_3" [NT "SENTENCE" [NT "NO_CU_SENTENCE" [NT "TERMS" [NT "TERMS_1"
  [NT "TERMS_2" [NT "TERM" [NT "TERM_PLAIN_SUMTI" [NT "SUMTI" [NT "SUMTI_1" [NT "SUMTI_2" [NT "SUMTI_3" [NT
  "SUMTI_4" [NT "SUMTI_5" [NT "SUMTI_5A" [NT "SUMTI_6" [Leaf (cm "mi")]]]]]]]]]]]]]; NT "BRIDI_TAIL" [NT
  "BRIDI_TAIL_1" [NT "BRIDI_TAIL_2" [NT "BRIDI_TAIL_3" [NT "MAIN_SELBRI" [NT "SELBRI" [NT "TAG" [NT "STAG" [NT
  "SIMPLE_TENSE_MODAL" [NT "TIME" [NT "TIME_OFFSET_SEQ" [NT "TIME_OFFSET" [Leaf (set_bahe (Some (cm "ba'e")) (cm
  "pu"))]]]]]]; NT "SELBRI_1" [NT "SELBRI_2" [NT "SELBRI_3" [NT "SELBRI_4" [NT "SELBRI_5" [NT "SELBRI_6" [NT
  "TANRU_UNIT" [NT "TANRU_UNIT_1" [NT "TANRU_UNIT_2" [Leaf (bv "klama")]]]]]]]]]]]; NT "TAIL_TERMS" [NT "TERMS" [NT
  "TERMS" [NT "TERMS_1" [NT "TERMS_2" [NT "TERM" [NT "TERM_PLAIN_SUMTI" [NT "SUMTI" [NT "SUMTI_1" [NT "SUMTI_2" [NT
  "SUMTI_3" [NT "SUMTI_4" [NT "SUMTI_5" [NT "SUMTI_5A" [NT "SUMTI_6" [Leaf (cm "le"); NT "SUMTI_TAIL" [NT
  "SUMTI_TAIL_1" [NT "SUMTI_TAIL_1A" [NT "SELBRI" [NT "TAG" [NT "STAG" [NT "SIMPLE_TENSE_MODAL" [NT "TIME" [NT
  "TIME_OFFSET_SEQ" [NT "TIME_OFFSET" [Leaf (cm "ba")]]]]]]; NT "SELBRI_1" [NT "SELBRI_2" [NT "SELBRI_3" [NT
  "SELBRI_4" [NT "SELBRI_5" [NT "SELBRI_6" [NT "TANRU_UNIT" [NT "TANRU_UNIT_1" [NT "TANRU_UNIT_2" [Leaf (bv
  "zarci")]]]]]]]]]]]]]]]]]]]]]]]]]]; NT "TERMS_1" [NT "TERMS_2" [NT "TERM" [NT "TERM_TAGGED_SUMTI" [NT "TAG" [NT
  "STAG" [NT "SIMPLE_TENSE_MODAL" [NT "TIME" [NT "TIME_OFFSET_SEQ" [NT "TIME_OFFSET" [Leaf (cm "ca")]]]]]]; NT
  "SUMTI" [NT "SUMTI_1" [NT "SUMTI_2" [NT "SUMTI_3" [NT "SUMTI_4" [NT "SUMTI_5" [NT "SUMTI_5A" [NT "SUMTI_6" [Leaf
  (cm "do")]]]]]]]]]]]]]]]]]]]]]]]]]]]]]].
Example C60_ex : parse_tree ex_tenses /\ exists ws, tense_processing (expand_bahe_ui ex_tenses) = Ok ws /\
  map snd ws = [TSC_SELBRI; TSC_SELBRI; TSC_NOUN; TSC_NOUN; TSC_TERM; TSC_TERM] /\
  map (fun w => subtree (expand_bahe_ui ex_tenses) (fst w)) (skipn 1 ws) =
    [Some (Leaf (set_bahe (Some (cm "ba'e")) (cm "pu"))); Some (NT "TIME_OFFSET" [Leaf (cm "ba")]); Some (Leaf (cm "ba"));
     Some (NT "TIME_OFFSET" [Leaf (cm "ca")]); Some (Leaf (cm "ca"))].
Proof. split; [apply parse_treeb_ok; vm_compute; reflexivity |]. eexists. repeat split; vm_compute; reflexivity. Qed.

(* a tense with a free modifier after it gets no context: mi pu xi pa klama *)
Definition ex_free : tree :=
  NT "CHUNKS" [NT "TEXT" [NT "TEXT_1" [NT "PARAGRAPHS" [NT "PARAGRAPH" [NT "STATEMENT" [NT "INNER_STATEMENT" [NT
  "STATEMENT_1" [NT "STATEMENT_2" [NT "STATEMENT_3" [NT "SENTENCE" [NT "NO_CU_SENTENCE" [NT "TERMS" [NT "TERMS_1"
  [NT "TERMS_2" [NT "TERM" [NT "TERM_PLAIN_SUMTI" [NT "SUMTI" [NT "SUMTI_1" [NT "SUMTI_2" [NT "SUMTI_3" [NT
  "SUMTI_4" [NT "SUMTI_5" [NT "SUMTI_5A" [NT "SUMTI_6" [Leaf (cm "mi")]]]]]]]]]]]]]; NT "BRIDI_TAIL" [NT
  "BRIDI_TAIL_1" [NT "BRIDI_TAIL_2" [NT "BRIDI_TAIL_3" [NT "MAIN_SELBRI" [NT "SELBRI" [NT "TAG" [NT "CTAG" [NT
  "COMPLEX_TENSE_MODAL" [NT "SIMPLE_TENSE_MODAL" [NT "TIME" [NT "TIME_OFFSET_SEQ" [NT "TIME_OFFSET" [Leaf (cm
  "pu")]]]]; NT "FREE_SEQ" [NT "FREE" [NT "SUBSCRIPT" [Leaf (cm "xi"); NT "NUMBER" [NT "INNER_NUMBER" [Leaf (cm
  "pa")]]]]]]]]; NT "SELBRI_1" [NT "SELBRI_2" [NT "SELBRI_3" [NT "SELBRI_4" [NT "SELBRI_5" [NT "SELBRI_6" [NT
  "TANRU_UNIT" [NT "TANRU_UNIT_1" [NT "TANRU_UNIT_2" [Leaf (bv "klama")]]]]]]]]]]]]]]]]]]]]]]]]]]].
Theorem C60_free_refuted : exists t p s, parse_tree t /\ subtree (expand_bahe_ui t) p = Some s /\ tense_place s /\
  tense_role (around (expand_bahe_ui t) p) = Some TSC_SELBRI /\
  exists ws, tense_processing (expand_bahe_ui t) = Ok ws /\ forall c, ~ In (p, c) ws.
Proof.
  exists ex_free. exists [0; 0; 0; 0; 0; 0; 0; 0; 0; 0; 0; 1; 0; 0; 0; 0; 0; 0; 0; 0; 0; 0; 0; 0]. eexists.
  split; [apply parse_treeb_ok; vm_compute; reflexivity |]. split; [vm_compute; reflexivity |].
  split; [left; reflexivity |]. split; [vm_compute; reflexivity |]. exists []. split; [vm_compute; reflexivity |]. intros c [].
Qed.
Print Assumptions C60_free_refuted.

(* the tense of a selbri inside jai with a tag is taken for the tag of jai:
   mi jai ca ke gu'e pu klama gi bajra ke'e *)
Definition ex_jai : tree :=
  NT "CHUNKS" [NT "TEXT" [NT "TEXT_1" [NT "PARAGRAPHS" [NT "PARAGRAPH" [NT "STATEMENT" [NT "INNER_STATEMENT" [NT
  "STATEMENT_1" [NT "STATEMENT_2" [NT "STATEMENT_3" [NT "SENTENCE" [NT "NO_CU_SENTENCE" [NT "TERMS" [NT "TERMS_1"
  [NT "TERMS_2" [NT "TERM" [NT "TERM_PLAIN_SUMTI" [NT "SUMTI" [NT "SUMTI_1" [NT "SUMTI_2" [NT "SUMTI_3" [NT
  "SUMTI_4" [NT "SUMTI_5" [NT "SUMTI_5A" [NT "SUMTI_6" [Leaf (cm "mi")]]]]]]]]]]]]]; NT "BRIDI_TAIL" [NT
  "BRIDI_TAIL_1" [NT "BRIDI_TAIL_2" [NT "BRIDI_TAIL_3" [NT "MAIN_SELBRI" [NT "SELBRI" [NT "SELBRI_1" [NT "SELBRI_2"
  [NT "SELBRI_3" [NT "SELBRI_4" [NT "SELBRI_5" [NT "SELBRI_6" [NT "TANRU_UNIT" [NT "TANRU_UNIT_1" [NT "TANRU_UNIT_2"
  [NT "JAI_TAG_TU2" [Leaf (cm "jai"); NT "TAG" [NT "STAG" [NT "SIMPLE_TENSE_MODAL" [NT "TIME" [NT "TIME_OFFSET_SEQ"
  [NT "TIME_OFFSET" [Leaf (cm "ca")]]]]]]; NT "TANRU_UNIT_2" [NT "KE_SELBRI3_TU2" [Leaf (cm "ke"); NT "SELBRI_3" [NT
  "SELBRI_4" [NT "SELBRI_5" [NT "SELBRI_6" [NT "GUHEK" [Leaf (cm "gu'e")]; NT "SELBRI" [NT "TAG" [NT "STAG" [NT
  "SIMPLE_TENSE_MODAL" [NT "TIME" [NT "TIME_OFFSET_SEQ" [NT "TIME_OFFSET" [Leaf (cm "pu")]]]]]]; NT "SELBRI_1" [NT
  "SELBRI_2" [NT "SELBRI_3" [NT "SELBRI_4" [NT "SELBRI_5" [NT "SELBRI_6" [NT "TANRU_UNIT" [NT "TANRU_UNIT_1" [NT
  "TANRU_UNIT_2" [Leaf (bv "klama")]]]]]]]]]]; NT "GIK" [Leaf (cm "gi")]; NT "SELBRI_6" [NT "TANRU_UNIT" [NT
  "TANRU_UNIT_1" [NT "TANRU_UNIT_2" [Leaf (bv "bajra")]]]]]]]]; Leaf (cm "ke'e")]]]]]]]]]]]]]]]]]]]]]]]]]]]]]].
Theorem C60_jai_refuted : exists t p s ws, parse_tree t /\ subtree (expand_bahe_ui t) p = Some s /\ tense_place s /\
  tense_role (around (expand_bahe_ui t) p) = Some TSC_SELBRI /\
  tense_processing (expand_bahe_ui t) = Ok ws /\ In (p, TSC_JAITAG) ws.
Proof.
  exists ex_jai.
  exists [0; 0; 0; 0; 0; 0; 0; 0; 0; 0; 0; 1; 0; 0; 0; 0; 0; 0; 0; 0; 0; 0; 0; 0; 0; 0; 0; 2; 0; 1; 0; 0; 0; 1; 0; 0; 0; 0; 0; 0].
  eexists. eexists. split; [apply parse_treeb_ok; vm_compute; reflexivity |]. split; [vm_compute; reflexivity |].
  split; [left; reflexivity |]. split; [vm_compute; reflexivity |]. split; [vm_compute; reflexivity |]. cbn [In]. tauto.
Qed.
Print Assumptions C60_jai_refuted.

(* ---- C61 ---- *)
(* the pass ends for every tree of the parser, without abort or null pointer, and this is
   all it writes *)
Theorem C61_writes : forall t, parse_tree t -> let T := expand_bahe_ui t in
  exists ws, relative_clause_processing T = Ok ws /\
  forall e, In e ws <->
    (exists p cc q j k b, subtree T p = Some (NT "RELATIVE_CLAUSE" cc) /\ group T p q j k /\ about k j b /\
        (e = (p, Antecedent (extend q b)) \/ e = (extend q b, RequireBrac))) \/
    (exists p x q, subtree T p = Some (Leaf x) /\ is_keha x = true /\ innermost "RELATIVE_CLAUSE" T p q /\
        (e = (p, RelLink q) \/ e = (q, ContainsKeha))) \/
    (exists p ch r, subtree T p = Some (NT "TERM_RELATIVE_CLAUSE" ch) /\ goi_of_tagged ch r /\ e = (p ++ r, DontGloss)).
Proof. exact relative_tree. Qed.
Print Assumptions C61_writes.

(* every relative clause is in a group of clauses, and its antecedent is what that group
   is about *)
Theorem C61_antecedent : forall t ws p cc, parse_tree t -> let T := expand_bahe_ui t in
  relative_clause_processing T = Ok ws -> subtree T p = Some (NT "RELATIVE_CLAUSE" cc) ->
  exists q j k, group T p q j k /\ forall a, In (p, Antecedent a) ws <-> exists b, about k j b /\ a = extend q b.
Proof. exact relative_antecedent. Qed.
Print Assumptions C61_antecedent.

(* ke'a is linked to the innermost relative clause around it *)
Theorem C61_keha : forall t ws p x, parse_tree t -> let T := expand_bahe_ui t in
  relative_clause_processing T = Ok ws -> subtree T p = Some (Leaf x) -> is_keha x = true ->
  forall q, (In (p, RelLink q) ws <-> innermost "RELATIVE_CLAUSE" T p q) /\
            (In (p, RelLink q) ws -> In (q, ContainsKeha) ws).
Proof. exact relative_keha. Qed.
Print Assumptions C61_keha.

(* mi viska le gerku ku poi mi nelci ke'a ku'o .i la noi ke'a melbi ku'o djan cu catlu
   le mlatu ku pe ca mi ge'u *)
Definition nm (w : string) : node := Node (N_CMENE w) 1 1 None false None [].
Definition ex_clauses : tree :=
  NT "CHUNKS" [NT "TEXT" [NT "TEXT_1" [NT "PARAGRAPHS" [NT "PARAGRAPH" [NT "PARAGRAPH" [NT "STATEMENT" [NT
  "INNER_STATEMENT" [NT "STATEMENT_1" [NT "STATEMENT_2" [NT "STATEMENT_3" [NT "SENTENCE" [NT "NO_CU_SENTENCE" [NT
  "TERMS" [NT "TERMS_1" [NT "TERMS_2" [NT "TERM" [NT "TERM_PLAIN_SUMTI" [NT "SUMTI" [NT "SUMTI_1" [NT "SUMTI_2" [NT
  "SUMTI_3" [NT "SUMTI_4" [NT "SUMTI_5" [NT "SUMTI_5A" [NT "SUMTI_6" [Leaf (cm "mi")]]]]]]]]]]]]]; NT "BRIDI_TAIL"
  [NT "BRIDI_TAIL_1" [NT "BRIDI_TAIL_2" [NT "BRIDI_TAIL_3" [NT "MAIN_SELBRI" [NT "SELBRI" [NT "SELBRI_1" [NT
  "SELBRI_2" [NT "SELBRI_3" [NT "SELBRI_4" [NT "SELBRI_5" [NT "SELBRI_6" [NT "TANRU_UNIT" [NT "TANRU_UNIT_1" [NT
  "TANRU_UNIT_2" [Leaf (bv "viska")]]]]]]]]]]]; NT "TAIL_TERMS" [NT "TERMS" [NT "TERMS_1" [NT "TERMS_2" [NT "TERM"
  [NT "TERM_PLAIN_SUMTI" [NT "SUMTI" [NT "SUMTI_1" [NT "SUMTI_2" [NT "SUMTI_3" [NT "SUMTI_4" [NT "SUMTI_5" [NT
  "SUMTI_5A" [NT "SUMTI_6" [Leaf (cm "le"); NT "SUMTI_TAIL" [NT "SUMTI_TAIL_1" [NT "SUMTI_TAIL_1A" [NT "SELBRI" [NT
  "SELBRI_1" [NT "SELBRI_2" [NT "SELBRI_3" [NT "SELBRI_4" [NT "SELBRI_5" [NT "SELBRI_6" [NT "TANRU_UNIT" [NT
  "TANRU_UNIT_1" [NT "TANRU_UNIT_2" [Leaf (bv "gerku")]]]]]]]]]]]]]; Leaf (cm "ku")]]; NT "RELATIVE_CLAUSES" [NT
  "RELATIVE_CLAUSE_SEQ" [NT "RELATIVE_CLAUSE" [NT "FULL_RELATIVE_CLAUSE" [Leaf (cm "poi"); NT "SUBSENTENCE" [NT
  "SENTENCE" [NT "NO_CU_SENTENCE" [NT "TERMS" [NT "TERMS_1" [NT "TERMS_2" [NT "TERM" [NT "TERM_PLAIN_SUMTI" [NT
  "SUMTI" [NT "SUMTI_1" [NT "SUMTI_2" [NT "SUMTI_3" [NT "SUMTI_4" [NT "SUMTI_5" [NT "SUMTI_5A" [NT "SUMTI_6" [Leaf
  (cm "mi")]]]]]]]]]]]]]; NT "BRIDI_TAIL" [NT "BRIDI_TAIL_1" [NT "BRIDI_TAIL_2" [NT "BRIDI_TAIL_3" [NT "MAIN_SELBRI"
  [NT "SELBRI" [NT "SELBRI_1" [NT "SELBRI_2" [NT "SELBRI_3" [NT "SELBRI_4" [NT "SELBRI_5" [NT "SELBRI_6" [NT
  "TANRU_UNIT" [NT "TANRU_UNIT_1" [NT "TANRU_UNIT_2" [Leaf (bv "nelci")]]]]]]]]]]]; NT "TAIL_TERMS" [NT "TERMS" [NT
  "TERMS_1" [NT "TERMS_2" [NT "TERM" [NT "TERM_PLAIN_SUMTI" [NT "SUMTI" [NT "SUMTI_1" [NT "SUMTI_2" [NT "SUMTI_3"
  [NT "SUMTI_4" [NT "SUMTI_5" [NT "SUMTI_5A" [NT "SUMTI_6" [Leaf (cm "ke'a")]]]]]]]]]]]]]]]]]]]]]; Leaf (cm
  "ku'o")]]]]]]]]]]]]]]]]]]]]]]]]]]]]; NT "I_OPT_FREE_SEQ" [Leaf (cm "i")]; NT "STATEMENT" [NT "INNER_STATEMENT" [NT
  "STATEMENT_1" [NT "STATEMENT_2" [NT "STATEMENT_3" [NT "SENTENCE" [NT "TERMS" [NT "TERMS_1" [NT "TERMS_2" [NT
  "TERM" [NT "TERM_PLAIN_SUMTI" [NT "SUMTI" [NT "SUMTI_1" [NT "SUMTI_2" [NT "SUMTI_3" [NT "SUMTI_4" [NT "SUMTI_5"
  [NT "SUMTI_5A" [NT "SUMTI_6" [NT "NAME_SUMTI_6" [Leaf (cm "la"); NT "RELATIVE_CLAUSES" [NT "RELATIVE_CLAUSE_SEQ"
  [NT "RELATIVE_CLAUSE" [NT "FULL_RELATIVE_CLAUSE" [Leaf (cm "noi"); NT "SUBSENTENCE" [NT "SENTENCE" [NT
  "NO_CU_SENTENCE" [NT "TERMS" [NT "TERMS_1" [NT "TERMS_2" [NT "TERM" [NT "TERM_PLAIN_SUMTI" [NT "SUMTI" [NT
  "SUMTI_1" [NT "SUMTI_2" [NT "SUMTI_3" [NT "SUMTI_4" [NT "SUMTI_5" [NT "SUMTI_5A" [NT "SUMTI_6" [Leaf (cm
  "ke'a")]]]]]]]]]]]]]; NT "BRIDI_TAIL" [NT "BRIDI_TAIL_1" [NT "BRIDI_TAIL_2" [NT "BRIDI_TAIL_3" [NT "MAIN_SELBRI"
  [NT "SELBRI" [NT "SELBRI_1" [NT "SELBRI_2" [NT "SELBRI_3" [NT "SELBRI_4" [NT "SELBRI_5" [NT "SELBRI_6" [NT
  "TANRU_UNIT" [NT "TANRU_UNIT_1" [NT "TANRU_UNIT_2" [Leaf (bv "melbi")]]]]]]]]]]]]]]]]]]; Leaf (cm "ku'o")]]]]; NT
  "CMENE_SEQ" [Leaf (nm "djan")]]]]]]]]]]]]]]]; Leaf (cm "cu"); NT "BRIDI_TAIL" [NT "BRIDI_TAIL_1" [NT
  "BRIDI_TAIL_2" [NT "BRIDI_TAIL_3" [NT "MAIN_SELBRI" [NT "SELBRI" [NT "SELBRI_1" [NT "SELBRI_2" [NT "SELBRI_3" [NT
  "SELBRI_4" [NT "SELBRI_5" [NT "SELBRI_6" [NT "TANRU_UNIT" [NT "TANRU_UNIT_1" [NT "TANRU_UNIT_2" [Leaf (bv
  "catlu")]]]]]]]]]]]; NT "TAIL_TERMS" [NT "TERMS" [NT "TERMS_1" [NT "TERMS_2" [NT "TERM" [NT "TERM_PLAIN_SUMTI" [NT
  "SUMTI" [NT "SUMTI_1" [NT "SUMTI_2" [NT "SUMTI_3" [NT "SUMTI_4" [NT "SUMTI_5" [NT "SUMTI_5A" [NT "SUMTI_6" [Leaf
  (cm "le"); NT "SUMTI_TAIL" [NT "SUMTI_TAIL_1" [NT "SUMTI_TAIL_1A" [NT "SELBRI" [NT "SELBRI_1" [NT "SELBRI_2" [NT
  "SELBRI_3" [NT "SELBRI_4" [NT "SELBRI_5" [NT "SELBRI_6" [NT "TANRU_UNIT" [NT "TANRU_UNIT_1" [NT "TANRU_UNIT_2"
  [Leaf (bv "mlatu")]]]]]]]]]]]]]; Leaf (cm "ku")]]; NT "RELATIVE_CLAUSES" [NT "RELATIVE_CLAUSE_SEQ" [NT
  "RELATIVE_CLAUSE" [NT "TERM_RELATIVE_CLAUSE" [Leaf (cm "pe"); NT "TERM" [NT "TERM_TAGGED_SUMTI" [NT "TAG" [NT
  "STAG" [NT "SIMPLE_TENSE_MODAL" [NT "TIME" [NT "TIME_OFFSET_SEQ" [NT "TIME_OFFSET" [Leaf (cm "ca")]]]]]]; NT
  "SUMTI" [NT "SUMTI_1" [NT "SUMTI_2" [NT "SUMTI_3" [NT "SUMTI_4" [NT "SUMTI_5" [NT "SUMTI_5A" [NT "SUMTI_6" [Leaf
  (cm "mi")]]]]]]]]]]; Leaf (cm "ge'u")]]]]]]]]]]]]]]]]]]]]]]]]]]]]]]].
Definition kind_at (t : tree) (p : path) : string :=
  match subtree t p with
  | Some (NT k _) => k
  | Some (Leaf x) => match dat x with N_CMAVO _ c _ => cmavo_word c | _ => "" end
  | None => "none"
  end.
Example C61_ex : parse_tree ex_clauses /\ exists ws, relative_clause_processing (expand_bahe_ui ex_clauses) = Ok ws /\
  flat_map (fun w => match snd w with Antecedent a => [(kind_at ex_clauses (fst w), kind_at ex_clauses a)] | _ => [] end) ws =
    [("RELATIVE_CLAUSE", "SUMTI_5A"); ("RELATIVE_CLAUSE", "NAME_SUMTI_6"); ("RELATIVE_CLAUSE", "SUMTI_5A")] /\
  flat_map (fun w => match snd w with RelLink a => [(kind_at ex_clauses (fst w), kind_at ex_clauses a)] | _ => [] end) ws =
    [("ke'a", "RELATIVE_CLAUSE"); ("ke'a", "RELATIVE_CLAUSE")] /\
  flat_map (fun w => match snd w with DontGloss => [kind_at ex_clauses (fst w)] | _ => [] end) ws = ["pe"].
Proof. split; [apply parse_treeb_ok; vm_compute; reflexivity |]. eexists. repeat split; vm_compute; reflexivity. Qed.

(* a clause before the selbri of a description gets no antecedent:
   le poi blabi ku'o gerku cu bajra *)
Definition ex_before : tree :=
  NT "CHUNKS" [NT "TEXT" [NT "TEXT_1" [NT "PARAGRAPHS" [NT "PARAGRAPH" [NT "STATEMENT" [NT "INNER_STATEMENT" [NT
  "STATEMENT_1" [NT "STATEMENT_2" [NT "STATEMENT_3" [NT "SENTENCE" [NT "TERMS" [NT "TERMS_1" [NT "TERMS_2" [NT
  "TERM" [NT "TERM_PLAIN_SUMTI" [NT "SUMTI" [NT "SUMTI_1" [NT "SUMTI_2" [NT "SUMTI_3" [NT "SUMTI_4" [NT "SUMTI_5"
  [NT "SUMTI_5A" [NT "SUMTI_6" [Leaf (cm "le"); NT "SUMTI_TAIL" [NT "RELATIVE_CLAUSES" [NT "RELATIVE_CLAUSE_SEQ" [NT
  "RELATIVE_CLAUSE" [NT "FULL_RELATIVE_CLAUSE" [Leaf (cm "poi"); NT "SUBSENTENCE" [NT "SENTENCE" [NT
  "OBSERVATIVE_SENTENCE" [NT "BRIDI_TAIL" [NT "BRIDI_TAIL_1" [NT "BRIDI_TAIL_2" [NT "BRIDI_TAIL_3" [NT "MAIN_SELBRI"
  [NT "SELBRI" [NT "SELBRI_1" [NT "SELBRI_2" [NT "SELBRI_3" [NT "SELBRI_4" [NT "SELBRI_5" [NT "SELBRI_6" [NT
  "TANRU_UNIT" [NT "TANRU_UNIT_1" [NT "TANRU_UNIT_2" [Leaf (bv "blabi")]]]]]]]]]]]]]]]]]]; Leaf (cm "ku'o")]]]]; NT
  "SUMTI_TAIL_1" [NT "SUMTI_TAIL_1A" [NT "SELBRI" [NT "SELBRI_1" [NT "SELBRI_2" [NT "SELBRI_3" [NT "SELBRI_4" [NT
  "SELBRI_5" [NT "SELBRI_6" [NT "TANRU_UNIT" [NT "TANRU_UNIT_1" [NT "TANRU_UNIT_2" [Leaf (bv
  "gerku")]]]]]]]]]]]]]]]]]]]]]]]]]]; Leaf (cm "cu"); NT "BRIDI_TAIL" [NT "BRIDI_TAIL_1" [NT "BRIDI_TAIL_2" [NT
  "BRIDI_TAIL_3" [NT "MAIN_SELBRI" [NT "SELBRI" [NT "SELBRI_1" [NT "SELBRI_2" [NT "SELBRI_3" [NT "SELBRI_4" [NT
  "SELBRI_5" [NT "SELBRI_6" [NT "TANRU_UNIT" [NT "TANRU_UNIT_1" [NT "TANRU_UNIT_2" [Leaf (bv
  "bajra")]]]]]]]]]]]]]]]]]]]]]]]]]].
Theorem C61_before_refuted : exists t q r cc ch ws, parse_tree t /\
  subtree (expand_bahe_ui t) (q ++ r) = Some (NT "RELATIVE_CLAUSE" cc) /\ subtree (expand_bahe_ui t) q = Some (NT "SUMTI_TAIL" ch) /\
  relative_clause_processing (expand_bahe_ui t) = Ok ws /\ forall a, ~ In (q ++ r, Antecedent a) ws.
Proof.
  exists ex_before. exists [0; 0; 0; 0; 0; 0; 0; 0; 0; 0; 0; 0; 0; 0; 0; 0; 0; 0; 0; 0; 0; 0; 0; 1], [0; 0; 0].
  eexists. eexists. exists []. split; [apply parse_treeb_ok; vm_compute; reflexivity |].
  split; [vm_compute; reflexivity |]. split; [vm_compute; reflexivity |]. split; [vm_compute; reflexivity | intros a []].
Qed.
Print Assumptions C61_before_refuted.

(* ---- C62 ---- *)
(* the warning is given for exactly the pieces of text that are only terms *)
Theorem C62_warnings : forall t, parse_tree t -> exists ws, error_scan [] (expand_bahe_ui t) = Ok ws /\
  forall p, In p ws <-> exists tc ch, subtree (expand_bahe_ui t) p = Some (NT "FRAGMENT" (NT "TERMS" tc :: ch)).
Proof. exact errors_tree. Qed.
Print Assumptions C62_warnings.

(* mi do .i mi klama *)
Definition ex_fragment : tree :=
  NT "CHUNKS" [NT "TEXT" [NT "TEXT_1" [NT "PARAGRAPHS" [NT "PARAGRAPH" [NT "PARAGRAPH" [NT "FRAGMENT" [NT "TERMS"
  [NT "TERMS" [NT "TERMS_1" [NT "TERMS_2" [NT "TERM" [NT "TERM_PLAIN_SUMTI" [NT "SUMTI" [NT "SUMTI_1" [NT "SUMTI_2"
  [NT "SUMTI_3" [NT "SUMTI_4" [NT "SUMTI_5" [NT "SUMTI_5A" [NT "SUMTI_6" [Leaf (cm "mi")]]]]]]]]]]]]]; NT "TERMS_1"
  [NT "TERMS_2" [NT "TERM" [NT "TERM_PLAIN_SUMTI" [NT "SUMTI" [NT "SUMTI_1" [NT "SUMTI_2" [NT "SUMTI_3" [NT
  "SUMTI_4" [NT "SUMTI_5" [NT "SUMTI_5A" [NT "SUMTI_6" [Leaf (cm "do")]]]]]]]]]]]]]]]; NT "I_OPT_FREE_SEQ" [Leaf (cm
  "i")]; NT "STATEMENT" [NT "INNER_STATEMENT" [NT "STATEMENT_1" [NT "STATEMENT_2" [NT "STATEMENT_3" [NT "SENTENCE"
  [NT "NO_CU_SENTENCE" [NT "TERMS" [NT "TERMS_1" [NT "TERMS_2" [NT "TERM" [NT "TERM_PLAIN_SUMTI" [NT "SUMTI" [NT
  "SUMTI_1" [NT "SUMTI_2" [NT "SUMTI_3" [NT "SUMTI_4" [NT "SUMTI_5" [NT "SUMTI_5A" [NT "SUMTI_6" [Leaf (cm
  "mi")]]]]]]]]]]]]]; NT "BRIDI_TAIL" [NT "BRIDI_TAIL_1" [NT "BRIDI_TAIL_2" [NT "BRIDI_TAIL_3" [NT "MAIN_SELBRI" [NT
  "SELBRI" [NT "SELBRI_1" [NT "SELBRI_2" [NT "SELBRI_3" [NT "SELBRI_4" [NT "SELBRI_5" [NT "SELBRI_6" [NT
  "TANRU_UNIT" [NT "TANRU_UNIT_1" [NT "TANRU_UNIT_2" [Leaf (bv "klama")]]]]]]]]]]]]]]]]]]]]]]]]]]].
Example C62_ex : parse_tree ex_fragment /\ error_scan [] (expand_bahe_ui ex_fragment) = Ok [[0; 0; 0; 0; 0; 0]].
Proof. split; [apply parse_treeb_ok; vm_compute; reflexivity | vm_compute; reflexivity]. Qed.
