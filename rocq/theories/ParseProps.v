(* Property theorems C14 and C15 for every text that parses. *)
From Coq Require Import String List NArith Bool Arith.
From Verif Require Import Base TokData CmavoData TokModel TreeModel TreeOutModel ErasureProps GramModel GramProofs ConnectModel ConnectSpec
  ConnectProofs2 ConvModel ConvSpec ConvProofs2.
Import ListNotations.
Open Scope string_scope.
Open Scope list_scope.

(* ---- C14 ---- *)
(* in every parse tree no assertion of the connectives pass fails; every afterthought
   connective gets the truth table of its word with its negations and conversion, and
   every forethought connective and its middle part get the same table or refer to the
   same joik or tense *)
Theorem C14_parse : forall t, parse_tree t -> exists ws, connectives_processing (expand_bahe_ui t) = Ok ws /\
  (forall p ty ch core, subtree (expand_bahe_ui t) p = Some (NT ty ch) -> In (ty, core) afterthought ->
     exists m n1 c n2, core_word core ch m /\ present T_NA ch n1 /\ present T_SE ch c /\ present T_NAI ch n2 /\
       connective_at ws p = Some (Logical CNP_AFTER (shown n1 c n2 m))) /\
  (forall p i pty pch ty ch, subtree (expand_bahe_ui t) p = Some (NT pty pch) -> nth_error pch i = Some (NT ty ch) ->
     ty = "GUHEK" \/ ty = "GEK" -> exists j gch n2, gik_child pch j gch /\ present T_NAI gch n2 /\
     ((exists core m n1 c, In (ty, core) forethought /\ core_word core ch m /\ present T_NAI ch n1 /\ present T_SE ch c /\
        connective_at ws (p ++ [i]) = Some (Logical CNP_GE (shown n1 c n2 m)) /\
        connective_at ws (p ++ [j]) = Some (Logical CNP_GI (shown n1 c n2 m))) \/
      (exists k jch, first_nt "JOIK" ch k jch /\
        connective_at ws (p ++ [i]) = Some (Other CNP_GE_JOIK (p ++ [i; k]) false n2) /\
        connective_at ws (p ++ [j]) = Some (Other CNP_GI_JOIK (p ++ [i; k]) false n2)) \/
      (exists k sch k' ogch n1, first_nt "STAG" ch k sch /\ first_nt "GIK" ch k' ogch /\ present T_NAI ogch n1 /\
        connective_at ws (p ++ [i]) = Some (Other CNP_GE_STAG (p ++ [i; k]) n1 n2) /\
        connective_at ws (p ++ [j]) = Some (Other CNP_GI_STAG (p ++ [i; k]) n1 n2)))).
Proof. exact parse_connectives. Qed.
Print Assumptions C14_parse.

(* ---- C15 ---- *)
(* in every parse tree every brivla that has none yet gets the place that x1 of its
   converted selbri is, and no assertion of the conversion pass fails *)
Theorem C15_parse : forall preset t, parse_tree t ->
  exists ws, conv_mark_tu2s preset [] [] (expand_bahe_ui t) = Ok ws /\
  forall p x, subtree (expand_bahe_ui t) p = Some (Leaf x) -> brivla x -> preset p = false ->
    exists anc ops qs, ancestors (expand_bahe_ui t) [] p anc /\ conversions anc ops qs /\
      (forall n, In (p, Conv n) ws <-> n = enc (place (rev ops) 1)) /\ Forall (fun q => In (q, DontGloss) ws) qs.
Proof. exact parse_marked. Qed.
Print Assumptions C15_parse.
Theorem C15_parse_bai : forall t, parse_tree t -> exists ws, conv_tag_se_bai [] (expand_bahe_ui t) = Ok ws.
Proof. exact parse_tagged. Qed.
Print Assumptions C15_parse_bai.

(* ganai mi ginai do na se .e nai ti se jai ba'e te klama se ba'i mi *)
Definition ex_parse : tree :=
  NT "CHUNKS" [NT "TEXT" [NT "TEXT_1" [NT "PARAGRAPHS" [NT "PARAGRAPH" [NT "STATEMENT" [NT "INNER_STATEMENT" [NT
  "STATEMENT_1" [NT "STATEMENT_2" [NT "STATEMENT_3" [NT "SENTENCE" [NT "NO_CU_SENTENCE" [NT "TERMS" [NT "TERMS_1"
  [NT "TERMS_2" [NT "TERM" [NT "TERM_PLAIN_SUMTI" [NT "SUMTI" [NT "SUMTI_1" [NT "SUMTI_2" [NT "SUMTI_2" [NT
  "SUMTI_3" [NT "SUMTI_4" [NT "GEK" [Leaf (cm "ga"); Leaf (cm "nai")]; NT "SUMTI" [NT "SUMTI_1" [NT "SUMTI_2" [NT
  "SUMTI_3" [NT "SUMTI_4" [NT "SUMTI_5" [NT "SUMTI_5A" [NT "SUMTI_6" [Leaf (cm "mi")]]]]]]]]; NT "GIK" [Leaf (cm
  "gi"); Leaf (cm "nai")]; NT "SUMTI_4" [NT "SUMTI_5" [NT "SUMTI_5A" [NT "SUMTI_6" [Leaf (cm "do")]]]]]]]; NT "EK"
  [Leaf (cm "na"); Leaf (cm "se"); Leaf (cm "e"); Leaf (cm "nai")]; NT "SUMTI_3" [NT "SUMTI_4" [NT "SUMTI_5" [NT
  "SUMTI_5A" [NT "SUMTI_6" [Leaf (cm "ti")]]]]]]]]]]]]]; NT "BRIDI_TAIL" [NT "BRIDI_TAIL_1" [NT "BRIDI_TAIL_2" [NT
  "BRIDI_TAIL_3" [NT "MAIN_SELBRI" [NT "SELBRI" [NT "SELBRI_1" [NT "SELBRI_2" [NT "SELBRI_3" [NT "SELBRI_4" [NT
  "SELBRI_5" [NT "SELBRI_6" [NT "TANRU_UNIT" [NT "TANRU_UNIT_1" [NT "TANRU_UNIT_2" [NT "SE_TU2" [Leaf (cm "se"); NT
  "TANRU_UNIT_2" [NT "JAI_TU2" [Leaf (cm "jai"); NT "TANRU_UNIT_2" [NT "SE_TU2" [Leaf (set_bahe (Some (cm "ba'e"))
  (cm "te")); NT "TANRU_UNIT_2" [Leaf (bv "klama")]]]]]]]]]]]]]]]]]; NT "TAIL_TERMS" [NT "TERMS" [NT "TERMS_1" [NT
  "TERMS_2" [NT "TERM" [NT "TERM_TAGGED_SUMTI" [NT "TAG" [NT "STAG" [NT "SIMPLE_TENSE_MODAL" [NT "SE_BAI" [Leaf (cm
  "se"); Leaf (cm "ba'i")]]]]; NT "SUMTI" [NT "SUMTI_1" [NT "SUMTI_2" [NT "SUMTI_3" [NT "SUMTI_4" [NT "SUMTI_5" [NT
  "SUMTI_5A" [NT "SUMTI_6" [Leaf (cm "mi")]]]]]]]]]]]]]]]]]]]]]]]]]]]]]].
Example ex_parse_ok : parse_tree ex_parse.
Proof. apply parse_treeb_ok. vm_compute. reflexivity. Qed.
(* not both mi and do; and neither that nor ti *)
Example ex_parse_connectives : exists ws, connectives_processing (expand_bahe_ui ex_parse) = Ok ws /\ map snd ws =
  [Logical CNP_GE "FTTT"; Logical CNP_GI "FTTT"; Logical CNP_AFTER "FFFT"].
Proof. eexists. split; vm_compute; reflexivity. Qed.
Example ex_parse_conversions : exists ws, conv_mark_tu2s (fun _ => false) [] [] (expand_bahe_ui ex_parse) = Ok ws /\
  map snd ws = [DontGloss; DontGloss; Conv 2].
Proof. eexists. split; vm_compute; reflexivity. Qed.
Example ex_parse_place : place (rev [Se 3; Jai; Se 2]) 1 = Some 2.
Proof. reflexivity. Qed.
Example ex_parse_bai : exists ws, conv_tag_se_bai [] (expand_bahe_ui ex_parse) = Ok ws /\ map snd ws = [BaiConv 2; DontGloss].
Proof. eexists. split; vm_compute; reflexivity. Qed.
