(* Property theorems C72 to C74: the labels of terms, for every tree of the parser. *)
From Coq Require Import String List NArith ZArith Bool Arith.
From Verif Require Import Base TokData CmavoData TokModel TreeModel TreeOutModel ErasureProps GrammarData GramModel GramSpec GramProofs
  TermsModel TermsSpec WalkModel WalkSpec WalkProofs7 WalkProofs8.
From Verif Require OutModel OutSpec.
Import OutSpec(written, leaves).
Import OutModel(term_tag, TTT_BRIVLA, TTT_JAITAG, TTT_ABSTRACTION, TTT_ME, TTT_NUMBERMOI, TTT_GOhA, TTT_NUhA, TTT_ZEI).
Import ListNotations.
Open Scope string_scope.
Open Scope list_scope.

(* ---- examples ---- *)

(* mi barda be ti se klama do *)
Definition ex_bridi : tree :=
  NT "CHUNKS" [NT "TEXT" [NT "TEXT_1" [NT "PARAGRAPHS" [NT "PARAGRAPH" [NT "STATEMENT" [NT "INNER_STATEMENT" [NT
  "STATEMENT_1" [NT "STATEMENT_2" [NT "STATEMENT_3" [NT "SENTENCE" [NT "NO_CU_SENTENCE" [NT "TERMS" [NT "TERMS_1"
  [NT "TERMS_2" [NT "TERM" [NT "TERM_PLAIN_SUMTI" [NT "SUMTI" [NT "SUMTI_1" [NT "SUMTI_2" [NT "SUMTI_3" [NT
  "SUMTI_4" [NT "SUMTI_5" [NT "SUMTI_5A" [NT "SUMTI_6" [Leaf (cm "mi")]]]]]]]]]]]]]; NT "BRIDI_TAIL" [NT
  "BRIDI_TAIL_1" [NT "BRIDI_TAIL_2" [NT "BRIDI_TAIL_3" [NT "MAIN_SELBRI" [NT "SELBRI" [NT "SELBRI_1" [NT "SELBRI_2"
  [NT "SELBRI_3" [NT "SELBRI_3" [NT "SELBRI_4" [NT "SELBRI_5" [NT "SELBRI_6" [NT "TANRU_UNIT" [NT "TANRU_UNIT_1" [NT
  "TANRU_UNIT_2" [Leaf (bv "barda")]; NT "LINKARGS" [Leaf (cm "be"); NT "TERM" [NT "TERM_PLAIN_SUMTI" [NT "SUMTI"
  [NT "SUMTI_1" [NT "SUMTI_2" [NT "SUMTI_3" [NT "SUMTI_4" [NT "SUMTI_5" [NT "SUMTI_5A" [NT "SUMTI_6" [Leaf (cm
  "ti")]]]]]]]]]]]]]]]]]; NT "SELBRI_4" [NT "SELBRI_5" [NT "SELBRI_6" [NT "TANRU_UNIT" [NT "TANRU_UNIT_1" [NT
  "TANRU_UNIT_2" [NT "SE_TU2" [Leaf (cm "se"); NT "TANRU_UNIT_2" [Leaf (bv "klama")]]]]]]]]]]]]]; NT "TAIL_TERMS"
  [NT "TERMS" [NT "TERMS_1" [NT "TERMS_2" [NT "TERM" [NT "TERM_PLAIN_SUMTI" [NT "SUMTI" [NT "SUMTI_1" [NT "SUMTI_2"
  [NT "SUMTI_3" [NT "SUMTI_4" [NT "SUMTI_5" [NT "SUMTI_5A" [NT "SUMTI_6" [Leaf (cm
  "do")]]]]]]]]]]]]]]]]]]]]]]]]]]]]]].

(* mi jai ca se klama gi'e citka be fi do ta *)
Definition ex_jai : tree :=
  NT "CHUNKS" [NT "TEXT" [NT "TEXT_1" [NT "PARAGRAPHS" [NT "PARAGRAPH" [NT "STATEMENT" [NT "INNER_STATEMENT" [NT
  "STATEMENT_1" [NT "STATEMENT_2" [NT "STATEMENT_3" [NT "SENTENCE" [NT "NO_CU_SENTENCE" [NT "TERMS" [NT "TERMS_1"
  [NT "TERMS_2" [NT "TERM" [NT "TERM_PLAIN_SUMTI" [NT "SUMTI" [NT "SUMTI_1" [NT "SUMTI_2" [NT "SUMTI_3" [NT
  "SUMTI_4" [NT "SUMTI_5" [NT "SUMTI_5A" [NT "SUMTI_6" [Leaf (cm "mi")]]]]]]]]]]]]]; NT "BRIDI_TAIL" [NT
  "BRIDI_TAIL_1" [NT "BRIDI_TAIL_1" [NT "BRIDI_TAIL_2" [NT "BRIDI_TAIL_3" [NT "MAIN_SELBRI" [NT "SELBRI" [NT
  "SELBRI_1" [NT "SELBRI_2" [NT "SELBRI_3" [NT "SELBRI_4" [NT "SELBRI_5" [NT "SELBRI_6" [NT "TANRU_UNIT" [NT
  "TANRU_UNIT_1" [NT "TANRU_UNIT_2" [NT "JAI_TAG_TU2" [Leaf (cm "jai"); NT "TAG" [NT "STAG" [NT "SIMPLE_TENSE_MODAL"
  [NT "TIME" [NT "TIME_OFFSET_SEQ" [NT "TIME_OFFSET" [Leaf (cm "ca")]]]]]]; NT "TANRU_UNIT_2" [NT "SE_TU2" [Leaf (cm
  "se"); NT "TANRU_UNIT_2" [Leaf (bv "klama")]]]]]]]]]]]]]]]]]]; NT "GIHEK" [Leaf (cm "gi'e")]; NT "BRIDI_TAIL_2"
  [NT "BRIDI_TAIL_3" [NT "MAIN_SELBRI" [NT "SELBRI" [NT "SELBRI_1" [NT "SELBRI_2" [NT "SELBRI_3" [NT "SELBRI_4" [NT
  "SELBRI_5" [NT "SELBRI_6" [NT "TANRU_UNIT" [NT "TANRU_UNIT_1" [NT "TANRU_UNIT_2" [Leaf (bv "citka")]; NT
  "LINKARGS" [Leaf (cm "be"); NT "TERM" [NT "TERM_PLACED_SUMTI" [Leaf (cm "fi"); NT "SUMTI" [NT "SUMTI_1" [NT
  "SUMTI_2" [NT "SUMTI_3" [NT "SUMTI_4" [NT "SUMTI_5" [NT "SUMTI_5A" [NT "SUMTI_6" [Leaf (cm
  "do")]]]]]]]]]]]]]]]]]]]]]]]; NT "TAIL_TERMS" [NT "TERMS" [NT "TERMS_1" [NT "TERMS_2" [NT "TERM" [NT
  "TERM_PLAIN_SUMTI" [NT "SUMTI" [NT "SUMTI_1" [NT "SUMTI_2" [NT "SUMTI_3" [NT "SUMTI_4" [NT "SUMTI_5" [NT
  "SUMTI_5A" [NT "SUMTI_6" [Leaf (cm "ta")]]]]]]]]]]]]]]]]]]]]]]]]]]]].

(* le pa moi be do se klama be ti cu barda *)
Definition ex_sumti : tree :=
  NT "CHUNKS" [NT "TEXT" [NT "TEXT_1" [NT "PARAGRAPHS" [NT "PARAGRAPH" [NT "STATEMENT" [NT "INNER_STATEMENT" [NT
  "STATEMENT_1" [NT "STATEMENT_2" [NT "STATEMENT_3" [NT "SENTENCE" [NT "TERMS" [NT "TERMS_1" [NT "TERMS_2" [NT
  "TERM" [NT "TERM_PLAIN_SUMTI" [NT "SUMTI" [NT "SUMTI_1" [NT "SUMTI_2" [NT "SUMTI_3" [NT "SUMTI_4" [NT "SUMTI_5"
  [NT "SUMTI_5A" [NT "SUMTI_6" [Leaf (cm "le"); NT "SUMTI_TAIL" [NT "SUMTI_TAIL_1" [NT "SUMTI_TAIL_1A" [NT "SELBRI"
  [NT "SELBRI_1" [NT "SELBRI_2" [NT "SELBRI_3" [NT "SELBRI_3" [NT "SELBRI_4" [NT "SELBRI_5" [NT "SELBRI_6" [NT
  "TANRU_UNIT" [NT "TANRU_UNIT_1" [NT "TANRU_UNIT_2" [NT "NUMBER_MOI_TU2" [NT "NUMBER" [NT "INNER_NUMBER" [Leaf (cm
  "pa")]]; Leaf (cm "moi")]]; NT "LINKARGS" [Leaf (cm "be"); NT "TERM" [NT "TERM_PLAIN_SUMTI" [NT "SUMTI" [NT
  "SUMTI_1" [NT "SUMTI_2" [NT "SUMTI_3" [NT "SUMTI_4" [NT "SUMTI_5" [NT "SUMTI_5A" [NT "SUMTI_6" [Leaf (cm
  "do")]]]]]]]]]]]]]]]]]; NT "SELBRI_4" [NT "SELBRI_5" [NT "SELBRI_6" [NT "TANRU_UNIT" [NT "TANRU_UNIT_1" [NT
  "TANRU_UNIT_2" [NT "SE_TU2" [Leaf (cm "se"); NT "TANRU_UNIT_2" [Leaf (bv "klama")]]]; NT "LINKARGS" [Leaf (cm
  "be"); NT "TERM" [NT "TERM_PLAIN_SUMTI" [NT "SUMTI" [NT "SUMTI_1" [NT "SUMTI_2" [NT "SUMTI_3" [NT "SUMTI_4" [NT
  "SUMTI_5" [NT "SUMTI_5A" [NT "SUMTI_6" [Leaf (cm "ti")]]]]]]]]]]]]]]]]]]]]]]]]]]]]]]]]]]]]; Leaf (cm "cu"); NT
  "BRIDI_TAIL" [NT "BRIDI_TAIL_1" [NT "BRIDI_TAIL_2" [NT "BRIDI_TAIL_3" [NT "MAIN_SELBRI" [NT "SELBRI" [NT
  "SELBRI_1" [NT "SELBRI_2" [NT "SELBRI_3" [NT "SELBRI_4" [NT "SELBRI_5" [NT "SELBRI_6" [NT "TANRU_UNIT" [NT
  "TANRU_UNIT_1" [NT "TANRU_UNIT_2" [Leaf (bv "barda")]]]]]]]]]]]]]]]]]]]]]]]]]].

(* mi klama gi'e ke citka ke'e *)
Definition ex_tail : tree :=
  NT "CHUNKS" [NT "TEXT" [NT "TEXT_1" [NT "PARAGRAPHS" [NT "PARAGRAPH" [NT "STATEMENT" [NT "INNER_STATEMENT" [NT
  "STATEMENT_1" [NT "STATEMENT_2" [NT "STATEMENT_3" [NT "SENTENCE" [NT "NO_CU_SENTENCE" [NT "TERMS" [NT "TERMS_1"
  [NT "TERMS_2" [NT "TERM" [NT "TERM_PLAIN_SUMTI" [NT "SUMTI" [NT "SUMTI_1" [NT "SUMTI_2" [NT "SUMTI_3" [NT
  "SUMTI_4" [NT "SUMTI_5" [NT "SUMTI_5A" [NT "SUMTI_6" [Leaf (cm "mi")]]]]]]]]]]]]]; NT "BRIDI_TAIL" [NT
  "BRIDI_TAIL_1" [NT "BRIDI_TAIL_2" [NT "BRIDI_TAIL_3" [NT "MAIN_SELBRI" [NT "SELBRI" [NT "SELBRI_1" [NT "SELBRI_2"
  [NT "SELBRI_3" [NT "SELBRI_4" [NT "SELBRI_5" [NT "SELBRI_6" [NT "TANRU_UNIT" [NT "TANRU_UNIT_1" [NT "TANRU_UNIT_2"
  [Leaf (bv "klama")]]]]]]]]]]]]]]; NT "GIHEK_STAG_KE" [NT "GIHEK" [Leaf (cm "gi'e")]]; Leaf (cm "ke"); NT
  "BRIDI_TAIL" [NT "BRIDI_TAIL_1" [NT "BRIDI_TAIL_2" [NT "BRIDI_TAIL_3" [NT "MAIN_SELBRI" [NT "SELBRI" [NT
  "SELBRI_1" [NT "SELBRI_2" [NT "SELBRI_3" [NT "SELBRI_4" [NT "SELBRI_5" [NT "SELBRI_6" [NT "TANRU_UNIT" [NT
  "TANRU_UNIT_1" [NT "TANRU_UNIT_2" [Leaf (bv "citka")]]]]]]]]]]]]]]]; Leaf (cm "ke'e")]]]]]]]]]]]]].

(* mi se .ui klama do *)
Definition ex_ui : tree :=
  NT "CHUNKS" [NT "TEXT" [NT "TEXT_1" [NT "PARAGRAPHS" [NT "PARAGRAPH" [NT "STATEMENT" [NT "INNER_STATEMENT" [NT
  "STATEMENT_1" [NT "STATEMENT_2" [NT "STATEMENT_3" [NT "SENTENCE" [NT "NO_CU_SENTENCE" [NT "TERMS" [NT "TERMS_1"
  [NT "TERMS_2" [NT "TERM" [NT "TERM_PLAIN_SUMTI" [NT "SUMTI" [NT "SUMTI_1" [NT "SUMTI_2" [NT "SUMTI_3" [NT
  "SUMTI_4" [NT "SUMTI_5" [NT "SUMTI_5A" [NT "SUMTI_6" [Leaf (cm "mi")]]]]]]]]]]]]]; NT "BRIDI_TAIL" [NT
  "BRIDI_TAIL_1" [NT "BRIDI_TAIL_2" [NT "BRIDI_TAIL_3" [NT "MAIN_SELBRI" [NT "SELBRI" [NT "SELBRI_1" [NT "SELBRI_2"
  [NT "SELBRI_3" [NT "SELBRI_4" [NT "SELBRI_5" [NT "SELBRI_6" [NT "TANRU_UNIT" [NT "TANRU_UNIT_1" [NT "TANRU_UNIT_2"
  [NT "SE_TU2" [Leaf (Node (dat (cm "se")) 1 1 None false None [cm "ui"]); NT "TANRU_UNIT_2" [Leaf (bv
  "klama")]]]]]]]]]]]]]; NT "TAIL_TERMS" [NT "TERMS" [NT "TERMS_1" [NT "TERMS_2" [NT "TERM" [NT "TERM_PLAIN_SUMTI"
  [NT "SUMTI" [NT "SUMTI_1" [NT "SUMTI_2" [NT "SUMTI_3" [NT "SUMTI_4" [NT "SUMTI_5" [NT "SUMTI_5A" [NT "SUMTI_6"
  [Leaf (cm "do")]]]]]]]]]]]]]]]]]]]]]]]]]]]]]].

(* mi, twenty-one times, and klama *)
Definition ex_many : tree :=
  NT "CHUNKS" [NT "TEXT" [NT "TEXT_1" [NT "PARAGRAPHS" [NT "PARAGRAPH" [NT "STATEMENT" [NT "INNER_STATEMENT" [NT
  "STATEMENT_1" [NT "STATEMENT_2" [NT "STATEMENT_3" [NT "SENTENCE" [NT "NO_CU_SENTENCE" [NT "TERMS" [NT "TERMS" [NT
  "TERMS" [NT "TERMS" [NT "TERMS" [NT "TERMS" [NT "TERMS" [NT "TERMS" [NT "TERMS" [NT "TERMS" [NT "TERMS" [NT
  "TERMS" [NT "TERMS" [NT "TERMS" [NT "TERMS" [NT "TERMS" [NT "TERMS" [NT "TERMS" [NT "TERMS" [NT "TERMS" [NT
  "TERMS" [NT "TERMS_1" [NT "TERMS_2" [NT "TERM" [NT "TERM_PLAIN_SUMTI" [NT "SUMTI" [NT "SUMTI_1" [NT "SUMTI_2" [NT
  "SUMTI_3" [NT "SUMTI_4" [NT "SUMTI_5" [NT "SUMTI_5A" [NT "SUMTI_6" [Leaf (cm "mi")]]]]]]]]]]]]]; NT "TERMS_1" [NT
  "TERMS_2" [NT "TERM" [NT "TERM_PLAIN_SUMTI" [NT "SUMTI" [NT "SUMTI_1" [NT "SUMTI_2" [NT "SUMTI_3" [NT "SUMTI_4"
  [NT "SUMTI_5" [NT "SUMTI_5A" [NT "SUMTI_6" [Leaf (cm "mi")]]]]]]]]]]]]]; NT "TERMS_1" [NT "TERMS_2" [NT "TERM" [NT
  "TERM_PLAIN_SUMTI" [NT "SUMTI" [NT "SUMTI_1" [NT "SUMTI_2" [NT "SUMTI_3" [NT "SUMTI_4" [NT "SUMTI_5" [NT
  "SUMTI_5A" [NT "SUMTI_6" [Leaf (cm "mi")]]]]]]]]]]]]]; NT "TERMS_1" [NT "TERMS_2" [NT "TERM" [NT
  "TERM_PLAIN_SUMTI" [NT "SUMTI" [NT "SUMTI_1" [NT "SUMTI_2" [NT "SUMTI_3" [NT "SUMTI_4" [NT "SUMTI_5" [NT
  "SUMTI_5A" [NT "SUMTI_6" [Leaf (cm "mi")]]]]]]]]]]]]]; NT "TERMS_1" [NT "TERMS_2" [NT "TERM" [NT
  "TERM_PLAIN_SUMTI" [NT "SUMTI" [NT "SUMTI_1" [NT "SUMTI_2" [NT "SUMTI_3" [NT "SUMTI_4" [NT "SUMTI_5" [NT
  "SUMTI_5A" [NT "SUMTI_6" [Leaf (cm "mi")]]]]]]]]]]]]]; NT "TERMS_1" [NT "TERMS_2" [NT "TERM" [NT
  "TERM_PLAIN_SUMTI" [NT "SUMTI" [NT "SUMTI_1" [NT "SUMTI_2" [NT "SUMTI_3" [NT "SUMTI_4" [NT "SUMTI_5" [NT
  "SUMTI_5A" [NT "SUMTI_6" [Leaf (cm "mi")]]]]]]]]]]]]]; NT "TERMS_1" [NT "TERMS_2" [NT "TERM" [NT
  "TERM_PLAIN_SUMTI" [NT "SUMTI" [NT "SUMTI_1" [NT "SUMTI_2" [NT "SUMTI_3" [NT "SUMTI_4" [NT "SUMTI_5" [NT
  "SUMTI_5A" [NT "SUMTI_6" [Leaf (cm "mi")]]]]]]]]]]]]]; NT "TERMS_1" [NT "TERMS_2" [NT "TERM" [NT
  "TERM_PLAIN_SUMTI" [NT "SUMTI" [NT "SUMTI_1" [NT "SUMTI_2" [NT "SUMTI_3" [NT "SUMTI_4" [NT "SUMTI_5" [NT
  "SUMTI_5A" [NT "SUMTI_6" [Leaf (cm "mi")]]]]]]]]]]]]]; NT "TERMS_1" [NT "TERMS_2" [NT "TERM" [NT
  "TERM_PLAIN_SUMTI" [NT "SUMTI" [NT "SUMTI_1" [NT "SUMTI_2" [NT "SUMTI_3" [NT "SUMTI_4" [NT "SUMTI_5" [NT
  "SUMTI_5A" [NT "SUMTI_6" [Leaf (cm "mi")]]]]]]]]]]]]]; NT "TERMS_1" [NT "TERMS_2" [NT "TERM" [NT
  "TERM_PLAIN_SUMTI" [NT "SUMTI" [NT "SUMTI_1" [NT "SUMTI_2" [NT "SUMTI_3" [NT "SUMTI_4" [NT "SUMTI_5" [NT
  "SUMTI_5A" [NT "SUMTI_6" [Leaf (cm "mi")]]]]]]]]]]]]]; NT "TERMS_1" [NT "TERMS_2" [NT "TERM" [NT
  "TERM_PLAIN_SUMTI" [NT "SUMTI" [NT "SUMTI_1" [NT "SUMTI_2" [NT "SUMTI_3" [NT "SUMTI_4" [NT "SUMTI_5" [NT
  "SUMTI_5A" [NT "SUMTI_6" [Leaf (cm "mi")]]]]]]]]]]]]]; NT "TERMS_1" [NT "TERMS_2" [NT "TERM" [NT
  "TERM_PLAIN_SUMTI" [NT "SUMTI" [NT "SUMTI_1" [NT "SUMTI_2" [NT "SUMTI_3" [NT "SUMTI_4" [NT "SUMTI_5" [NT
  "SUMTI_5A" [NT "SUMTI_6" [Leaf (cm "mi")]]]]]]]]]]]]]; NT "TERMS_1" [NT "TERMS_2" [NT "TERM" [NT
  "TERM_PLAIN_SUMTI" [NT "SUMTI" [NT "SUMTI_1" [NT "SUMTI_2" [NT "SUMTI_3" [NT "SUMTI_4" [NT "SUMTI_5" [NT
  "SUMTI_5A" [NT "SUMTI_6" [Leaf (cm "mi")]]]]]]]]]]]]]; NT "TERMS_1" [NT "TERMS_2" [NT "TERM" [NT
  "TERM_PLAIN_SUMTI" [NT "SUMTI" [NT "SUMTI_1" [NT "SUMTI_2" [NT "SUMTI_3" [NT "SUMTI_4" [NT "SUMTI_5" [NT
  "SUMTI_5A" [NT "SUMTI_6" [Leaf (cm "mi")]]]]]]]]]]]]]; NT "TERMS_1" [NT "TERMS_2" [NT "TERM" [NT
  "TERM_PLAIN_SUMTI" [NT "SUMTI" [NT "SUMTI_1" [NT "SUMTI_2" [NT "SUMTI_3" [NT "SUMTI_4" [NT "SUMTI_5" [NT
  "SUMTI_5A" [NT "SUMTI_6" [Leaf (cm "mi")]]]]]]]]]]]]]; NT "TERMS_1" [NT "TERMS_2" [NT "TERM" [NT
  "TERM_PLAIN_SUMTI" [NT "SUMTI" [NT "SUMTI_1" [NT "SUMTI_2" [NT "SUMTI_3" [NT "SUMTI_4" [NT "SUMTI_5" [NT
  "SUMTI_5A" [NT "SUMTI_6" [Leaf (cm "mi")]]]]]]]]]]]]]; NT "TERMS_1" [NT "TERMS_2" [NT "TERM" [NT
  "TERM_PLAIN_SUMTI" [NT "SUMTI" [NT "SUMTI_1" [NT "SUMTI_2" [NT "SUMTI_3" [NT "SUMTI_4" [NT "SUMTI_5" [NT
  "SUMTI_5A" [NT "SUMTI_6" [Leaf (cm "mi")]]]]]]]]]]]]]; NT "TERMS_1" [NT "TERMS_2" [NT "TERM" [NT
  "TERM_PLAIN_SUMTI" [NT "SUMTI" [NT "SUMTI_1" [NT "SUMTI_2" [NT "SUMTI_3" [NT "SUMTI_4" [NT "SUMTI_5" [NT
  "SUMTI_5A" [NT "SUMTI_6" [Leaf (cm "mi")]]]]]]]]]]]]]; NT "TERMS_1" [NT "TERMS_2" [NT "TERM" [NT
  "TERM_PLAIN_SUMTI" [NT "SUMTI" [NT "SUMTI_1" [NT "SUMTI_2" [NT "SUMTI_3" [NT "SUMTI_4" [NT "SUMTI_5" [NT
  "SUMTI_5A" [NT "SUMTI_6" [Leaf (cm "mi")]]]]]]]]]]]]]; NT "TERMS_1" [NT "TERMS_2" [NT "TERM" [NT
  "TERM_PLAIN_SUMTI" [NT "SUMTI" [NT "SUMTI_1" [NT "SUMTI_2" [NT "SUMTI_3" [NT "SUMTI_4" [NT "SUMTI_5" [NT
  "SUMTI_5A" [NT "SUMTI_6" [Leaf (cm "mi")]]]]]]]]]]]]]; NT "TERMS_1" [NT "TERMS_2" [NT "TERM" [NT
  "TERM_PLAIN_SUMTI" [NT "SUMTI" [NT "SUMTI_1" [NT "SUMTI_2" [NT "SUMTI_3" [NT "SUMTI_4" [NT "SUMTI_5" [NT
  "SUMTI_5A" [NT "SUMTI_6" [Leaf (cm "mi")]]]]]]]]]]]]]; NT "BRIDI_TAIL" [NT "BRIDI_TAIL_1" [NT "BRIDI_TAIL_2" [NT
  "BRIDI_TAIL_3" [NT "MAIN_SELBRI" [NT "SELBRI" [NT "SELBRI_1" [NT "SELBRI_2" [NT "SELBRI_3" [NT "SELBRI_4" [NT
  "SELBRI_5" [NT "SELBRI_6" [NT "TANRU_UNIT" [NT "TANRU_UNIT_1" [NT "TANRU_UNIT_2" [Leaf (bv
  "klama")]]]]]]]]]]]]]]]]]]]]]]]]]]].

(* what a term is, and the word, tag or number that its label names *)
Definition text (T : tree) (p : path) : string :=
  match subtree T p with
  | Some s => String.concat " " (map (fun e => written false (snd e)) (leaves p s))
  | None => "?"
  end.
Definition label_text (T : tree) (t : term_tag) : string * Z :=
  match t with
  | TTT_BRIVLA q n | TTT_ABSTRACTION q n | TTT_ME q n | TTT_GOhA q n | TTT_NUhA q n | TTT_ZEI q n => (text T q, n)
  | TTT_JAITAG q r n => ("jai " ++ text T q ++ " " ++ text T r, n)%string
  | TTT_NUMBERMOI q r n => (text T q ++ " " ++ text T r, n)%string
  end.
Definition labels (T : tree) (es : list effect) : list (string * (string * Z)) :=
  flat_map (fun e => match e with Tagged x t => [(text T x, label_text T t)] | _ => [] end) es.
Definition conversions (T : tree) (es : list effect) : list (string * nat) :=
  flat_map (fun e => match e with Converted x n => [(text T x, n)] | _ => [] end) es.
Definition untold (T : tree) (es : list effect) : list path :=
  flat_map (fun e => match e with NoGloss x => [x] | _ => [] end) es.

(* ---- C72: the labels ---- *)

(* A term is labelled with a place of a word exactly if it is given that place by the selbri of
   its own bridi, or of the description or the linked terms it is in. *)
Theorem C72_labels : forall t es, parse_tree t -> let T := expand_bahe_ui t in terms_processing T = Ok es ->
  forall x l, In (Tagged x l) es <-> called T x l.
Proof. exact tree_labels. Qed.
Print Assumptions C72_labels.

Example C72_case : parse_tree ex_bridi /\ exists es, terms_processing (expand_bahe_ui ex_bridi) = Ok es /\
  labels (expand_bahe_ui ex_bridi) es = [("mi", ("klama", 2)); ("do", ("klama", 1)); ("ti", ("barda", 2))]%Z.
Proof. split; [apply parse_treeb_ok; vm_compute; reflexivity |]. apply (processed (labels (expand_bahe_ui ex_bridi))). vm_compute. reflexivity. Qed.
Example C72_jai_case : parse_tree ex_jai /\ exists es, terms_processing (expand_bahe_ui ex_jai) = Ok es /\
  labels (expand_bahe_ui ex_jai) es =
    [("mi", ("jai ca se klama", 2)); ("ta", ("klama", 1)); ("fi do", ("citka", 3)); ("mi", ("citka", 1)); ("ta", ("citka", 2))]%Z.
Proof. split; [apply parse_treeb_ok; vm_compute; reflexivity |]. apply (processed (labels (expand_bahe_ui ex_jai))). vm_compute. reflexivity. Qed.
Example C72_sumti_case : parse_tree ex_sumti /\ exists es, terms_processing (expand_bahe_ui ex_sumti) = Ok es /\
  labels (expand_bahe_ui ex_sumti) es =
    [("le pa moi be do se klama be ti", ("barda", 1)); ("ti", ("klama", 1)); ("do", ("pa moi", 2))]%Z.
Proof. split; [apply parse_treeb_ok; vm_compute; reflexivity |]. apply (processed (labels (expand_bahe_ui ex_sumti))). vm_compute. reflexivity. Qed.

(* Some texts are not processed: a second bridi-tail in ke … ke'e without terms after it makes
   the program read a vector that was never set; *)
Theorem C72_tail_refuted : exists t, parse_tree t /\ terms_processing (expand_bahe_ui t) = UB UB_uninit.
Proof. exists ex_tail. split; [apply parse_treeb_ok |]; vm_compute; reflexivity. Qed.
Print Assumptions C72_tail_refuted.
(* and more than twenty terms do not fit. *)
Theorem C72_many_refuted : exists t, parse_tree t /\ terms_processing (expand_bahe_ui t) = UB UB_bounds.
Proof. exists ex_many. split; [apply parse_treeb_ok |]; vm_compute; reflexivity. Qed.
Print Assumptions C72_many_refuted.

(* ---- C73: conversions ---- *)

(* A word is translated as converted exactly if a selbri uses it so, *)
Theorem C73_converted : forall t es, parse_tree t -> let T := expand_bahe_ui t in terms_processing T = Ok es ->
  forall x n, In (Converted x n) es <-> converted T x n.
Proof. exact tree_converted. Qed.
Print Assumptions C73_converted.
(* and then, and only then, the SE are not translated themselves. *)
Theorem C73_told : forall t es, parse_tree t -> let T := expand_bahe_ui t in terms_processing T = Ok es ->
  forall y, In (NoGloss y) es <-> told T y.
Proof. exact tree_told. Qed.
Print Assumptions C73_told.

Example C73_case : parse_tree ex_bridi /\ exists es, terms_processing (expand_bahe_ui ex_bridi) = Ok es /\
  (conversions (expand_bahe_ui ex_bridi) es, map (text (expand_bahe_ui ex_bridi)) (untold (expand_bahe_ui ex_bridi) es)) =
  ([("klama", 2); ("barda", 1)], ["se"]).
Proof.
  split; [apply parse_treeb_ok; vm_compute; reflexivity |].
  apply (processed (fun es => (conversions (expand_bahe_ui ex_bridi) es, map (text (expand_bahe_ui ex_bridi)) (untold (expand_bahe_ui ex_bridi) es)))).
  vm_compute. reflexivity.
Qed.

(* With an indicator after se it is not the word that is marked, so the word is translated
   though the conversion is told already. *)
Theorem C73_indicator_refuted : exists t es y ch, parse_tree t /\ let T := expand_bahe_ui t in
  terms_processing T = Ok es /\ untold T es = [y] /\ subtree T y = Some (NT "AUGMENTED" ch) /\ text T (y ++ [0]) = "se".
Proof.
  exists ex_ui. do 3 eexists. split; [apply parse_treeb_ok; vm_compute; reflexivity |]. cbv zeta.
  split; [vm_compute; reflexivity |]. split; [vm_compute; reflexivity |]. split; vm_compute; reflexivity.
Qed.
Print Assumptions C73_indicator_refuted.

(* ---- C74: what labels refer to ---- *)

(* Labels are put on terms only, name words of the right sort or parts of the text with
   brackets, and a place from 1 to 19. *)
Theorem C74_refers : forall t es, parse_tree t -> let T := expand_bahe_ui t in terms_processing T = Ok es ->
  forall x l, In (Tagged x l) es ->
    (exists ch, subtree T x = Some (NT "TERM" ch)) /\ refers T (fun q => In (Brackets q) es) l /\ (1 <= place_of l <= 19)%Z.
Proof. exact tree_refer. Qed.
Print Assumptions C74_refers.

(* A number with MOI gets no brackets if there are only linked terms, so that the label shows
   a number that is nowhere in the text. *)
Theorem C74_number_refuted : exists t es x q r n, parse_tree t /\ let T := expand_bahe_ui t in
  terms_processing T = Ok es /\ In (Tagged x (TTT_NUMBERMOI q r n)) es /\ ~ In (Brackets q) es.
Proof.
  destruct (terms_processing (expand_bahe_ui ex_sumti)) as [es| | | |] eqn:R; try (exfalso; revert R; vm_compute; discriminate).
  destruct (moi_without_ok es) as (x & q & r & n & A & B).
  - assert (Q : (do es <- terms_processing (expand_bahe_ui ex_sumti); Ok (moi_without es)) = Ok true) by (vm_compute; reflexivity).
    rewrite R in Q. injection Q as Q. exact Q.
  - exists ex_sumti, es, x, q, r, n. split; [apply parse_treeb_ok; vm_compute; reflexivity |]. auto.
Qed.
Print Assumptions C74_number_refuted.

