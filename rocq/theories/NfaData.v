(* Generated by tools/gen_nfa.py from the automaton descriptions in
   /repo: a transcription, block expansion is done by the model. *)
From Coq Require Import String List NArith.
From Verif Require Import DfaModel.
Import ListNotations.
Open Scope string_scope.

(* stag_nfa.in:17-130 *)
Definition stag_desc : list decl :=
  [(* stag_nfa.in:17 *) DTokens ["BAI"; "BU"; "BY"; "CAhA"; "CUhE"; "FAhA"; "FEhE"; "FOI"; "KI"; "LAU"; "MOhI"; "NAhE"; "NAI"; "PA"; "PU"; "ROI"; "SE"; "TAhE"; "TEI"; "VA"; "VEhA"; "VIhA"; "ZAhO"; "ZEhA"; "ZI"];
   (* stag_nfa.in:21 *) DBlock "time_offset_seq"
    []
    [StateDecl "in" None 
      [([Options [Some "PU"]; Options [Some "NAI"; None]; Options [Some "ZI"; None]], Goto ["in"; "out"])]];
   (* stag_nfa.in:26 *) DBlock "zeha_pu_nai"
    []
    [StateDecl "in" None 
      [([Options [Some "ZEhA"]; Options [Some "PU"]; Options [Some "NAI"]], Goto ["out"]);
       ([Options [Some "ZEhA"]; Options [Some "PU"]], Goto ["out"]);
       ([Options [Some "ZEhA"]], Goto ["out"])]];
   (* stag_nfa.in:33 *) DBlock "number"
    []
    [StateDecl "in" None 
      [([Options [Some "PA"]], Goto ["out"])];
     StateDecl "out" None 
      [([Options [Some "PA"]], Goto ["out"]);
       ([Options [Some "BY"]], Goto ["out"]);
       ([Options [Some "BU"]], Goto ["out"]);
       ([Options [Some "LAU"]], Goto ["out"]);
       ([Options [Some "FOI"]], Goto ["out"]);
       ([Options [Some "TEI"]], Goto ["out"])]];
   (* stag_nfa.in:50 *) DBlock "interval_property"
    []
    [StateDecl "in" None 
      [([Options [Some "TAhE"]; Options [Some "NAI"; None]], Goto ["out"]);
       ([Options [Some "ZAhO"]; Options [Some "NAI"; None]], Goto ["out"]);
       ([Inline [Some ("number", "in", "out")]; Options [Some "ROI"]; Options [Some "NAI"; None]], Goto ["out"])]];
   (* stag_nfa.in:57 *) DBlock "interval_property_seq"
    []
    [StateDecl "in" None 
      [([Inline [Some ("interval_property", "in", "out")]], Goto ["in"; "out"])]];
   (* stag_nfa.in:62 *) DBlock "time"
    []
    [StateDecl "in" None 
      [([Options [Some "ZI"; None]; Inline [Some ("time_offset_seq", "in", "out"); None]; Inline [Some ("zeha_pu_nai", "in", "out"); None]; Inline [Some ("interval_property_seq", "in", "out")]], Goto ["out"]);
       ([Options [Some "ZI"; None]; Inline [Some ("time_offset_seq", "in", "out"); None]; Inline [Some ("zeha_pu_nai", "in", "out")]], Goto ["out"]);
       ([Options [Some "ZI"; None]; Inline [Some ("time_offset_seq", "in", "out")]], Goto ["out"]);
       ([Options [Some "ZI"]], Goto ["out"])]];
   (* stag_nfa.in:70 *) DBlock "space_offset_seq"
    []
    [StateDecl "in" None 
      [([Options [Some "FAhA"]; Options [Some "NAI"; None]; Options [Some "VA"; None]], Goto ["in"; "out"])]];
   (* stag_nfa.in:75 *) DBlock "vvfn"
    []
    [StateDecl "in" None 
      [([Options [Some "VEhA"]; Options [Some "VIhA"]; Options [Some "FAhA"]; Options [Some "NAI"; None]], Goto ["out"]);
       ([Options [Some "VEhA"]; Options [Some "VIhA"]], Goto ["out"]);
       ([Options [Some "VEhA"]; Options [Some "FAhA"]; Options [Some "NAI"; None]], Goto ["out"]);
       ([Options [Some "VEhA"]], Goto ["out"]);
       ([Options [Some "VIhA"]; Options [Some "FAhA"]; Options [Some "NAI"; None]], Goto ["out"]);
       ([Options [Some "VIhA"]], Goto ["out"])]];
   (* stag_nfa.in:85 *) DBlock "space_int_props"
    []
    [StateDecl "in" None 
      [([Options [Some "FEhE"]; Inline [Some ("interval_property", "in", "out")]], Goto ["in"; "out"])]];
   (* stag_nfa.in:90 *) DBlock "space_interval"
    []
    [StateDecl "in" None 
      [([Inline [Some ("vvfn", "in", "out"); None]; Inline [Some ("space_int_props", "in", "out")]], Goto ["out"]);
       ([Inline [Some ("vvfn", "in", "out")]], Goto ["out"])]];
   (* stag_nfa.in:96 *) DBlock "mohi_space_offset"
    []
    [StateDecl "in" None 
      [([Options [Some "MOhI"]; Options [Some "FAhA"]; Options [Some "NAI"; None]; Options [Some "VA"; None]], Goto ["out"])]];
   (* stag_nfa.in:101 *) DBlock "space"
    []
    [StateDecl "in" None 
      [([Options [Some "VA"; None]; Inline [Some ("space_offset_seq", "in", "out"); None]; Inline [Some ("space_interval", "in", "out"); None]; Inline [Some ("mohi_space_offset", "in", "out")]], Goto ["out"]);
       ([Options [Some "VA"; None]; Inline [Some ("space_offset_seq", "in", "out"); None]; Inline [Some ("space_interval", "in", "out")]], Goto ["out"]);
       ([Options [Some "VA"; None]; Inline [Some ("space_offset_seq", "in", "out")]], Goto ["out"]);
       ([Options [Some "VA"]], Goto ["out"])]];
   (* stag_nfa.in:109 *) DBlock "tsst"
    []
    [StateDecl "in" None 
      [([Options [Some "NAhE"; None]; Inline [Some ("time", "in", "out")]; Inline [Some ("space", "in", "out"); None]], Goto ["out"]);
       ([Options [Some "NAhE"; None]; Inline [Some ("space", "in", "out")]; Inline [Some ("time", "in", "out"); None]], Goto ["out"])]];
   (* stag_nfa.in:115 *) DBlock "simple_tense_modal"
    []
    [StateDecl "in" None 
      [([Options [Some "NAhE"; None]; Options [Some "SE"; None]; Options [Some "BAI"]; Options [Some "NAI"; None]; Options [Some "KI"; None]], Goto ["out"]);
       ([Options [Some "NAhE"; None]; Inline [Some ("tsst", "in", "out"); None]; Options [Some "CAhA"]; Options [Some "KI"; None]], Goto ["out"]);
       ([Options [Some "NAhE"; None]; Inline [Some ("tsst", "in", "out")]; Options [Some "KI"; None]], Goto ["out"]);
       ([Options [Some "KI"]], Goto ["out"]);
       ([Options [Some "CUhE"]], Goto ["out"])]];
   (* stag_nfa.in:124 *) DBlock "main"
    []
    [StateDecl "in" None 
      [([Inline [Some ("simple_tense_modal", "in", "out")]], ExitTag "SUCCESS")]];
   (* stag_nfa.in:129 *) DExit (DResult "SUCCESS" None false);
   (* stag_nfa.in:130 *) DExit (DDefault "FAILURE")].

(* bctables.in:1-71 *)
Definition bad_cmene_desc : list decl :=
  [(* bctables.in:1 *) DTokens ["A"; "E"; "I"; "O"; "U"; "Y"; "D"; "L"; "OCONS"; "APOS"; "COMMA"];
   (* bctables.in:6 *) DAbbrev "VOWEL" ["A"; "E"; "I"; "O"; "U"];
   (* bctables.in:7 *) DAbbrev "CONS" ["D"; "L"; "OCONS"];
   (* bctables.in:8 *) DAbbrev "ANY" ["VOWEL"; "Y"; "CONS"; "APOS"; "COMMA"];
   (* bctables.in:10 *) DBlock "LA_DOI"
    []
    [StateDecl "in" None 
      [([Options [Some "L"]], Goto ["l"]);
       ([Options [Some "D"]], Goto ["d"])];
     StateDecl "l" (Some "ATTR_SEEN_LD") 
      [([Options [Some "A"]; Options [Some "APOS"; Some "COMMA"; Some "CONS"]], Goto ["blocked"]);
       ([Options [Some "A"]; Options [Some "I"]; Options [Some "APOS"; Some "COMMA"; Some "CONS"]], Goto ["blocked"])];
     StateDecl "d" (Some "ATTR_SEEN_LD") 
      [([Options [Some "O"]; Options [Some "I"]; Options [Some "APOS"; Some "COMMA"; Some "CONS"]], Goto ["blocked"])];
     StateDecl "blocked" None []];
   (* bctables.in:27 *) DBlock "MAIN"
    [("split", "LA_DOI"); ("nosplit", "LA_DOI")]
    [StateDecl "split.blocked" None 
      [([Options [None]], ExitTag "TAG_SPLIT")];
     StateDecl "nosplit.blocked" None 
      [([Options [None]], ExitTag "TAG_NOSPLIT")];
     StateDecl "v" None 
      [([Options [Some "VOWEL"; Some "Y"]], Goto ["v"]);
       ([Options [Some "APOS"; Some "COMMA"]], Goto ["a"]);
       ([Options [Some "CONS"]], Goto ["c"]);
       ([Options [None]], Goto ["split.in"])];
     StateDecl "a" None 
      [([Options [Some "VOWEL"; Some "Y"]], Goto ["v"])];
     StateDecl "c" None 
      [([Options [Some "CONS"]], Goto ["c"]);
       ([Options [Some "COMMA"]; Options [Some "CONS"]], Goto ["c"]);
       ([Options [Some "Y"]], Goto ["y"]);
       ([Options [Some "VOWEL"]], Goto ["v"]);
       ([Options [None]], ExitTag "TAG_OK")];
     StateDecl "y" None 
      [([Options [Some "APOS"]], Goto ["a"]);
       ([Options [Some "COMMA"]; Options [Some "VOWEL"; Some "Y"]], Goto ["v"]);
       ([Options [Some "CONS"]], Goto ["c"]);
       ([Options [None]], Goto ["nosplit.in"])];
     StateDecl "in" None 
      [([Options [Some "CONS"]], Goto ["c"]);
       ([Options [Some "Y"]], Goto ["y"]);
       ([Options [Some "VOWEL"]], Goto ["v"]);
       ([Options [None]], Goto ["split.in"])]];
   (* bctables.in:65 *) DExit (DResult "BC_CMENE_BAD_SPLIT" (Some (E_SYMBOL "TAG_SPLIT")) true);
   (* bctables.in:66 *) DExit (DResult "BC_CMENE_BAD_NOSPLIT" (Some (E_SYMBOL "TAG_NOSPLIT")) true);
   (* bctables.in:67 *) DExit (DResult "BC_CMENE_OK" (Some (E_AND (E_SYMBOL "TAG_OK") (E_NOT (E_OR (E_SYMBOL "TAG_SPLIT") (E_SYMBOL "TAG_NOSPLIT"))))) false);
   (* bctables.in:68 *) DExit (DDefault "BC_NOT_COMPLETE");
   (* bctables.in:70 *) DAttr (DResult "ATTR_SEEN_LD" None false);
   (* bctables.in:71 *) DAttr (DDefault "ATTR_NONE")].

(* morf_nfa.in:29-1041 *)
Definition morf_desc : list decl :=
  [(* morf_nfa.in:29 *) DTokens ["UNK"; "V"; "APOS"; "Y"; "R"; "N"; "C"; "NR"; "CI"; "CSI"; "CP"; "CS"; "CN"; "H"; "HS"; "BT"; "VV"; "VX"; "VO"; "VY"; "YY"];
   (* morf_nfa.in:77 *) DAbbrev "CNR" ["C"; "N"; "R"];
   (* morf_nfa.in:78 *) DAbbrev "LCI" ["CI"; "CSI"];
   (* morf_nfa.in:79 *) DAbbrev "LCP" ["CI"; "CSI"; "CP"; "CS"; "NR"];
   (* morf_nfa.in:80 *) DAbbrev "FVV" ["VV"; "VX"; "VO"];
   (* morf_nfa.in:81 *) DAbbrev "FC" ["C"; "N"; "R"];
   (* morf_nfa.in:82 *) DAbbrev "FCP" ["CI"; "CP"; "H"];
   (* morf_nfa.in:83 *) DAbbrev "FCS" ["CSI"; "CS"; "HS"; "NR"];
   (* morf_nfa.in:89 *) DBlock "SYL1"
    []
    [StateDecl "in" None 
      [([Options [Some "CNR"]; Options [Some "V"]; Options [Some "APOS"]; Options [Some "V"]], Goto ["ex_nr"]);
       ([Options [Some "CNR"]; Options [Some "V"]; Options [Some "VV"]], Goto ["ex_nr"]);
       ([Options [Some "C"]; Options [Some "LCI"]; Options [Some "V"]], Goto ["ex_cln"]);
       ([Options [Some "CNR"]; Options [Some "V"]; Options [Some "CNR"]], Goto ["ex_cvc"]);
       ([Options [Some "CNR"]; Options [Some "V"]; Options [Some "CNR"]; Options [Some "LCP"]], Goto ["ex_cvy"]);
       ([Options [Some "C"]; Options [Some "LCI"]; Options [Some "V"]; Options [Some "CNR"]], Goto ["ex_y"])]];
   (* morf_nfa.in:102 *) DBlock "AFTER1"
    []
    [StateDecl "in_nr" None 
      [([Options [Some "R"]; Options [Some "CP"; Some "CS"]], Goto ["to_lujvo1"; "to_after_nr_hyphen"]);
       ([Options [Some "N"]; Options [Some "NR"]], Goto ["to_lujvo1"; "to_after_nr_hyphen"]);
       ([Options [Some "CNR"]], Goto ["to_final_ccv"])];
     StateDecl "in_cln" None 
      [([Options [Some "CNR"]], Goto ["to_lujvo0"; "to_pair0"])];
     StateDecl "in_y" None 
      [([Options [Some "Y"]; Options [Some "LCP"; Some "CN"]], Goto ["to_lujvo0"; "to_pair0"]);
       ([Options [Some "Y"]; Options [Some "CP"]; Options [Some "BT"]], Goto ["to_in_after_cc0"])];
     StateDecl "in_cvy" None 
      [([Options [Some "Y"]; Options [Some "LCP"; Some "CN"; Some "HS"; Some "H"; Some "BT"]], Goto ["to_lujvo1"; "to_pair1"]);
       ([Options [Some "Y"]; Options [Some "CP"; Some "H"]; Options [Some "BT"]], Goto ["to_in_after_cc1"])];
     StateDecl "in_cvc" None 
      [([Options [Some "LCP"]], Goto ["to_lujvo1"; "to_pair1"]);
       ([Options [Some "Y"]; Options [Some "CN"]], Goto ["to_lujvo1"; "to_pair1"]);
       ([Options [Some "Y"]; Options [Some "LCI"]], Goto ["to_lujvo1t"; "to_pair1t"; "to_tosmabru"]);
       ([Options [Some "Y"]; Options [Some "CP"]; Options [Some "BT"]], Goto ["to_in_after_cc1"])]];
   (* morf_nfa.in:131 *) DBlock "SYL2"
    []
    [StateDecl "in" None 
      [([Options [Some "V"]; Options [Some "VV"]], Goto ["ex_cln"]);
       ([Options [Some "V"]; Options [Some "APOS"]; Options [Some "V"]], Goto ["ex_cln"]);
       ([Options [Some "LCI"]; Options [Some "V"]], Goto ["ex_cln"]);
       ([Options [Some "V"]; Options [Some "CNR"]], Goto ["ex_cvc"]);
       ([Options [Some "V"]; Options [Some "CNR"]; Options [Some "LCP"]], Goto ["ex_y"]);
       ([Options [Some "LCI"]; Options [Some "V"]; Options [Some "CNR"]], Goto ["ex_y"])];
     StateDecl "in_after_cc" None 
      [([Options [Some "V"]], Goto ["ex_cln"]);
       ([Options [Some "V"]; Options [Some "CNR"]], Goto ["ex_y"])]];
   (* morf_nfa.in:150 *) DBlock "AFTER2"
    []
    [StateDecl "in_cln" None 
      [([Options [Some "CNR"]], Goto ["exit"])];
     StateDecl "in_cvc" None 
      [([Options [Some "Y"]; Options [Some "CN"]], Goto ["exit"]);
       ([Options [Some "Y"]; Options [Some "CP"]; Options [Some "BT"]], Goto ["exit_after_cc"]);
       ([Options [Some "LCP"]], Goto ["exit"])];
     StateDecl "in_y" None 
      [([Options [Some "Y"]; Options [Some "LCP"; Some "CN"; Some "HS"; Some "H"; Some "BT"]], Goto ["exit"]);
       ([Options [Some "Y"]; Options [Some "CP"; Some "H"]; Options [Some "BT"]], Goto ["exit_after_cc"])]];
   (* morf_nfa.in:169 *) DBlock "SYLN"
    []
    [StateDecl "in_main" None 
      [([Options [Some "V"]; Options [Some "APOS"]; Options [Some "V"]], Goto ["exit"]);
       ([Options [Some "V"]; Options [Some "VV"]], Goto ["exit"]);
       ([Options [Some "LCI"]; Options [Some "V"]], Goto ["exit"]);
       ([Options [Some "LCI"]; Options [Some "V"]; Options [Some "CNR"]; Options [Some "V"]], Goto ["exit"]);
       ([Options [Some "V"]; Options [Some "CNR"]; Options [Some "LCP"]; Options [Some "V"]], Goto ["exit"])];
     StateDecl "in_after_nr_hyphen" None 
      [([Options [Some "V"]; Options [Some "APOS"]; Options [Some "V"]], Goto ["exit"]);
       ([Options [Some "V"]; Options [Some "VV"]], Goto ["exit"]);
       ([Options [Some "LCI"]; Options [Some "V"]; Options [Some "CNR"]; Options [Some "V"]], Goto ["exit"]);
       ([Options [Some "V"]; Options [Some "CNR"]; Options [Some "LCP"]; Options [Some "V"]], Goto ["exit"])];
     StateDecl "in_to_ccv" None 
      [([Options [Some "LCI"]; Options [Some "V"]], Goto ["exit"])];
     StateDecl "in_after_cc" None 
      [([Options [Some "V"]], Goto ["exit"]);
       ([Options [Some "V"]; Options [Some "CNR"]; Options [Some "V"]], Goto ["exit"])]];
   (* morf_nfa.in:195 *) DBlock "SYL2N"
    [("s2", "SYL2"); ("a2", "AFTER2"); ("sn", "SYLN")]
    [StateDecl "in" None 
      [([Options [None]], Goto ["s2.in"])];
     StateDecl "in_after_cc" None 
      [([Options [None]], Goto ["s2.in_after_cc"; "sn.in_after_cc"])];
     StateDecl "s2.ex_cln" None 
      [([Options [None]], Goto ["a2.in_cln"])];
     StateDecl "s2.ex_cvc" None 
      [([Options [None]], Goto ["a2.in_cvc"])];
     StateDecl "s2.ex_y" None 
      [([Options [None]], Goto ["a2.in_y"])];
     StateDecl "a2.exit" None 
      [([Options [None]], Goto ["s2.in"; "sn.in_main"])];
     StateDecl "a2.exit_after_cc" None 
      [([Options [None]], Goto ["s2.in_after_cc"; "sn.in_after_cc"])]];
   (* morf_nfa.in:226 *) DBlock "TOS_SYL1"
    []
    [StateDecl "in" None 
      [([Options [Some "V"]], Goto ["ex_cln"]);
       ([Options [Some "V"]; Options [Some "CNR"]], Goto ["ex_y"])]];
   (* morf_nfa.in:236 *) DBlock "TOS_AFTER1"
    []
    [StateDecl "in_cln" None 
      [([Options [Some "CNR"]], Goto ["exit"])];
     StateDecl "in_y" None 
      [([Options [Some "Y"]; Options [Some "LCP"; Some "CN"]], Goto ["exit"]);
       ([Options [Some "Y"]; Options [Some "CP"; Some "CS"]; Options [Some "BT"]], Goto ["exit_to_after_cc"])]];
   (* morf_nfa.in:249 *) DBlock "TOSMABRU"
    [("s1", "TOS_SYL1"); ("a1", "TOS_AFTER1"); ("tail", "SYL2N")]
    [StateDecl "in" None 
      [([Options [None]], Goto ["s1.in"])];
     StateDecl "s1.ex_cln" None 
      [([Options [None]], Goto ["a1.in_cln"])];
     StateDecl "s1.ex_y" None 
      [([Options [None]], Goto ["a1.in_y"])];
     StateDecl "a1.exit" None 
      [([Options [None]], Goto ["tail.sn.in_main"; "tail.in"])];
     StateDecl "a1.exit_to_after_cc" None 
      [([Options [None]], Goto ["tail.in_after_cc"])];
     StateDecl "tail.sn.exit" None 
      [([Options [None]], Goto ["exit"])]];
   (* morf_nfa.in:267 *) DBlock "LUJVO_BODY"
    [("s1", "SYL1"); ("a1", "AFTER1"); ("t0", "SYL2N"); ("t1", "SYL2N"); ("t1t", "SYL2N"); ("tos", "TOSMABRU")]
    [StateDecl "in" None 
      [([Options [None]], Goto ["s1.in"])];
     StateDecl "s1.ex_nr" None 
      [([Options [None]], Goto ["a1.in_nr"])];
     StateDecl "s1.ex_cln" None 
      [([Options [None]], Goto ["a1.in_cln"])];
     StateDecl "s1.ex_y" None 
      [([Options [None]], Goto ["a1.in_y"])];
     StateDecl "s1.ex_cvy" None 
      [([Options [None]], Goto ["a1.in_cvy"])];
     StateDecl "s1.ex_cvc" None 
      [([Options [None]], Goto ["a1.in_cvc"])];
     StateDecl "a1.to_final_ccv" None 
      [([Options [None]], Goto ["t1.sn.in_to_ccv"])];
     StateDecl "a1.to_after_nr_hyphen" None 
      [([Options [None]], Goto ["t1.sn.in_after_nr_hyphen"])];
     StateDecl "a1.to_in_after_cc0" None 
      [([Options [None]], Goto ["t0.in_after_cc"])];
     StateDecl "a1.to_in_after_cc1" None 
      [([Options [None]], Goto ["t1.in_after_cc"])];
     StateDecl "a1.to_pair0" None 
      [([Options [None]], Goto ["t0.sn.in_main"])];
     StateDecl "a1.to_pair1" None 
      [([Options [None]], Goto ["t1.sn.in_main"])];
     StateDecl "a1.to_pair1t" None 
      [([Options [None]], Goto ["t1t.sn.in_main"])];
     StateDecl "a1.to_tosmabru" None 
      [([Options [None]], Goto ["tos.in"])];
     StateDecl "a1.to_lujvo0" None 
      [([Options [None]], Goto ["t0.in"])];
     StateDecl "a1.to_lujvo1" None 
      [([Options [None]], Goto ["t1.in"])];
     StateDecl "a1.to_lujvo1t" None 
      [([Options [None]], Goto ["t1t.in"])]];
   (* morf_nfa.in:316 *) DBlock "LUJVO"
    [("body", "LUJVO_BODY")]
    [StateDecl "in" None 
      [([Options [None]], Goto ["body.in"])];
     StateDecl "body.t0.sn.exit" None 
      [([Options [None]], ExitTag "TAG_LUJVO_0")];
     StateDecl "body.t1.sn.exit" None 
      [([Options [None]], ExitTag "TAG_LUJVO_1")];
     StateDecl "body.t1t.sn.exit" None 
      [([Options [None]], ExitTag "TAG_LUJVO_1T")];
     StateDecl "body.tos.exit" None 
      [([Options [None]], ExitTag "TAG_LUJVO_TAIL_OK")]];
   (* morf_nfa.in:340 *) DBlock "CULTURAL_BRIDGE"
    []
    [StateDecl "in_before_c" None 
      [([Options [Some "C"]], Goto ["in"])];
     StateDecl "in" None 
      [([Options [Some "LCI"]], Goto ["in_after_cc"])];
     StateDecl "in_after_cc" None 
      [([Options [Some "V"]; Options [Some "APOS"]; Options [Some "V"]; Options [Some "CNR"]], Goto ["exit"]);
       ([Options [Some "V"]; Options [Some "VV"]; Options [Some "CNR"]], Goto ["exit"])]];
   (* morf_nfa.in:360 *) DBlock "CULTURAL_LUJVO"
    [("body", "LUJVO_BODY"); ("s1", "CULTURAL_BRIDGE"); ("tos_s1", "CULTURAL_BRIDGE"); ("t0", "CULTURAL_BRIDGE"); ("t1", "CULTURAL_BRIDGE"); ("t1t", "CULTURAL_BRIDGE"); ("tos", "CULTURAL_BRIDGE")]
    [StateDecl "in" None 
      [([Options [None]], Goto ["body.in"])];
     StateDecl "body.s1.in" None 
      [([Options [None]], Goto ["s1.in_before_c"])];
     StateDecl "s1.exit" None 
      [([Options [None]], Goto ["body.s1.ex_y"])];
     StateDecl "body.t0.s2.in" None 
      [([Options [None]], Goto ["t0.in"])];
     StateDecl "body.t0.s2.in_after_cc" None 
      [([Options [None]], Goto ["t0.in_after_cc"])];
     StateDecl "t0.exit" None 
      [([Options [None]], Goto ["body.t0.s2.ex_y"])];
     StateDecl "body.t1.s2.in" None 
      [([Options [None]], Goto ["t1.in"])];
     StateDecl "body.t1.s2.in_after_cc" None 
      [([Options [None]], Goto ["t1.in_after_cc"])];
     StateDecl "t1.exit" None 
      [([Options [None]], Goto ["body.t1.s2.ex_y"])];
     StateDecl "body.t1t.s2.in" None 
      [([Options [None]], Goto ["t1t.in"])];
     StateDecl "body.t1t.s2.in_after_cc" None 
      [([Options [None]], Goto ["t1t.in_after_cc"])];
     StateDecl "t1t.exit" None 
      [([Options [None]], Goto ["body.t1t.s2.ex_y"])];
     StateDecl "body.tos.tail.s2.in" None 
      [([Options [None]], Goto ["tos.in"])];
     StateDecl "body.tos.tail.s2.in_after_cc" None 
      [([Options [None]], Goto ["tos.in_after_cc"])];
     StateDecl "tos.exit" None 
      [([Options [None]], Goto ["body.tos.tail.s2.ex_y"])];
     StateDecl "body.tos.s1.in" None 
      [([Options [None]], Goto ["tos_s1.in_after_cc"])];
     StateDecl "tos_s1.exit" None 
      [([Options [None]], Goto ["body.tos.s1.ex_y"])];
     StateDecl "body.t0.sn.exit" None 
      [([Options [None]], ExitTag "TAG_CULTURAL_LUJVO_0")];
     StateDecl "body.t1.sn.exit" None 
      [([Options [None]], ExitTag "TAG_CULTURAL_LUJVO_1")];
     StateDecl "body.t1t.sn.exit" None 
      [([Options [None]], ExitTag "TAG_CULTURAL_LUJVO_1T")];
     StateDecl "body.tos.exit" None 
      [([Options [None]], ExitTag "TAG_CULTURAL_LUJVO_TAIL_OK")]];
   (* morf_nfa.in:432 *) DBlock "LUJVO_NO_Y_BAD_VOWELS"
    []
    [StateDecl "c" None 
      [([Options [Some "LCP"]; Options [Some "V"]; Options [Some "FVV"]], Goto ["v"; "exit"]);
       ([Options [Some "LCP"]; Options [Some "V"]; Options [Some "APOS"]; Options [Some "V"]], Goto ["v"; "exit"]);
       ([Options [Some "LCP"]; Options [Some "V"]; Options [Some "CNR"]], Goto ["c"]);
       ([Options [Some "LCP"]; Options [Some "LCI"]; Options [Some "V"]], Goto ["v"; "exit"])];
     StateDecl "v" None 
      [([Options [Some "CNR"]; Options [Some "V"]; Options [Some "FVV"]], Goto ["v"; "exit"]);
       ([Options [Some "CNR"]; Options [Some "V"]; Options [Some "APOS"]; Options [Some "V"]], Goto ["v"; "exit"]);
       ([Options [Some "CNR"]; Options [Some "LCI"]; Options [Some "V"]], Goto ["v"; "exit"]);
       ([Options [Some "CNR"]; Options [Some "V"]; Options [Some "CNR"]], Goto ["c"])];
     StateDecl "cvv1" None 
      [([Options [Some "R"]; Options [Some "LCP"]; Options [Some "V"]; Options [Some "FVV"]], Goto ["v"; "exit"]);
       ([Options [Some "R"]; Options [Some "LCP"]; Options [Some "V"]; Options [Some "APOS"]; Options [Some "V"]], Goto ["v"; "exit"]);
       ([Options [Some "R"]; Options [Some "LCP"]; Options [Some "V"]; Options [Some "CNR"]], Goto ["c"]);
       ([Options [Some "R"]; Options [Some "LCP"]; Options [Some "LCI"]; Options [Some "V"]], Goto ["v"; "exit"]);
       ([Options [Some "N"]; Options [Some "NR"]; Options [Some "V"]; Options [Some "FVV"]], Goto ["v"; "exit"]);
       ([Options [Some "N"]; Options [Some "NR"]; Options [Some "V"]; Options [Some "APOS"]; Options [Some "V"]], Goto ["v"; "exit"]);
       ([Options [Some "N"]; Options [Some "NR"]; Options [Some "V"]; Options [Some "CNR"]], Goto ["c"])];
     StateDecl "exit" None 
      [([Options [None]], ExitTag "TAG_LUJVO_NO_Y_BAD_VOWELS")];
     StateDecl "in" None 
      [([Options [Some "CNR"]; Options [Some "V"]; Options [Some "FVV"]], Goto ["cvv1"]);
       ([Options [Some "CNR"]; Options [Some "V"]; Options [Some "APOS"]; Options [Some "V"]], Goto ["cvv1"]);
       ([Options [Some "CNR"]; Options [Some "LCI"]; Options [Some "V"]], Goto ["v"]);
       ([Options [Some "CNR"]; Options [Some "V"]; Options [Some "CNR"]], Goto ["c"]);
       ([Options [Some "CNR"]; Options [Some "V"]; Options [Some "FVV"]; Options [Some "CNR"]; Options [Some "LCI"]; Options [Some "V"]], Goto ["exit"]);
       ([Options [Some "CNR"]; Options [Some "V"]; Options [Some "APOS"]; Options [Some "V"]; Options [Some "CNR"]; Options [Some "LCI"]; Options [Some "V"]], Goto ["exit"])]];
   (* morf_nfa.in:470 *) DBlock "CMAVOSEQ"
    []
    [StateDecl "in" None 
      [([Options [Some "V"]], Goto ["m2"; "mv"; "in1"]);
       ([Options [Some "CNR"]], Goto ["main"; "cy1"]);
       ([Options [Some "Y"]], Goto ["y"])];
     StateDecl "in1" None 
      [([Options [Some "VX"]], Goto ["in2"])];
     StateDecl "in2" None 
      [([Options [None]], Goto ["exit_prefixable"]);
       ([Options [Some "CNR"]], Goto ["main"])];
     StateDecl "main" None 
      [([Options [Some "V"]], Goto ["m2"; "mv"])];
     StateDecl "mv" None 
      [([Options [Some "VV"]], Goto ["m2"; "mv"])];
     StateDecl "m2" None 
      [([Options [Some "CNR"]], Goto ["main"; "cy1"]);
       ([Options [Some "APOS"]], Goto ["main"]);
       ([Options [None]], Goto ["exit_prefixable"])];
     StateDecl "cy1" None 
      [([Options [Some "Y"]], Goto ["cy2"])];
     StateDecl "cy2" None 
      [([Options [None]], Goto ["exit_standalone"]);
       ([Options [Some "CI"; Some "CSI"; Some "CP"; Some "CS"; Some "CN"; Some "NR"; Some "H"; Some "HS"; Some "BT"]], Goto ["cy1"])];
     StateDecl "y" None 
      [([Options [Some "YY"]], Goto ["yy"]);
       ([Options [None]], Goto ["exit_standalone"]);
       ([Options [Some "APOS"]], Goto ["ya"])];
     StateDecl "yy" None 
      [([Options [Some "YY"]], Goto ["yy"]);
       ([Options [None]], Goto ["exit_standalone"])];
     StateDecl "ya" None 
      [([Options [Some "Y"]], Goto ["exit_standalone"])];
     StateDecl "exit_prefixable" None 
      [([Options [None]], ExitTag "TAG_CMAVOS")];
     StateDecl "exit_standalone" None 
      [([Options [None]], ExitTag "TAG_CMAVOS_END_CY")]];
   (* morf_nfa.in:525 *) DBlock "GISMU"
    []
    [StateDecl "in" None 
      [([Options [Some "C"]; Options [Some "LCI"]; Options [Some "V"]; Options [Some "CNR"]; Options [Some "V"]], ExitTag "TAG_GISMU_0");
       ([Options [Some "CNR"]; Options [Some "V"]; Options [Some "CNR"]; Options [Some "LCP"]; Options [Some "V"]], ExitTag "TAG_GISMU_1")]];
   (* morf_nfa.in:538 *) DBlock "SLINKUI"
    [("t0", "SYL2N")]
    [StateDecl "in_after_c" None 
      [([Options [Some "LCP"]], Goto ["t0.sn.in_main"; "t0.in"])];
     StateDecl "t0.sn.exit" None 
      [([Options [None]], ExitTag "TAG_SLINKUI_0")]];
   (* morf_nfa.in:576 *) DBlock "FV_VOWELS"
    []
    [StateDecl "in" None 
      [([Options [Some "V"]], Goto ["ex_single"]);
       ([Options [Some "V"]; Options [Some "FVV"]], Goto ["ex_single"]);
       ([Options [Some "V"]; Options [Some "FVV"]; Options [Some "FVV"]], Goto ["main"]);
       ([Options [Some "V"]; Options [Some "APOS"]; Options [Some "V"]], Goto ["main"]);
       ([Options [Some "V"]; Options [Some "FVV"]; Options [Some "APOS"]; Options [Some "V"]], Goto ["main"])];
     StateDecl "main" None 
      [([Options [Some "APOS"]; Options [Some "V"]], Goto ["main"]);
       ([Options [Some "FVV"]], Goto ["main"]);
       ([Options [None]], Goto ["ex_multi"])]];
   (* morf_nfa.in:594 *) DBlock "FV_INITIAL_CLUSTER"
    []
    [StateDecl "in" None 
      [([Options [Some "C"]; Options [Some "CI"]], Goto ["exit"]);
       ([Options [Some "C"]; Options [Some "CSI"]], Goto ["exit"]);
       ([Options [Some "C"]; Options [Some "CI"]; Options [Some "CI"]], Goto ["exit"]);
       ([Options [Some "C"]; Options [Some "CI"]; Options [Some "CSI"]], Goto ["exit"]);
       ([Options [Some "C"]; Options [Some "CI"]; Options [Some "CSI"]; Options [Some "CSI"]], Goto ["exit"]);
       ([Options [Some "C"]; Options [Some "CI"]; Options [Some "CI"]; Options [Some "CSI"]; Options [Some "CSI"]], Goto ["exit"])]];
   (* morf_nfa.in:608 *) DBlock "FV_INTERNAL_CONS_GROUP"
    []
    [StateDecl "in" None 
      [([Options [Some "FC"]], Goto ["c1"])];
     StateDecl "c1" None 
      [([Options [Some "FCS"]], Goto ["cs"]);
       ([Options [Some "FCP"]], Goto ["c2"]);
       ([Options [None]], Goto ["exit"])];
     StateDecl "c2" None 
      [([Options [Some "FCS"]], Goto ["cs"]);
       ([Options [Some "FCP"]], Goto ["c3"]);
       ([Options [None]], Goto ["exit"])];
     StateDecl "c3" None 
      [([Options [Some "FCS"]; Options [Some "FCS"]], Goto ["cs"]);
       ([Options [Some "FCS"]; Options [Some "FCP"]], Goto ["c1"]);
       ([Options [None]], Goto ["exit"])];
     StateDecl "cs" None 
      [([Options [Some "FCS"]], Goto ["cs"]);
       ([Options [Some "FCP"]], Goto ["c1"]);
       ([Options [None]], Goto ["exit"])];
     StateDecl "in_req_clus" None 
      [([Options [Some "FC"]; Options [Some "FCS"]], Goto ["cs"]);
       ([Options [Some "FC"]; Options [Some "FCP"]], Goto ["c2"])];
     StateDecl "in_after_c" None 
      [([Options [None]], Goto ["c1"])];
     StateDecl "in_after_s" None 
      [([Options [None]], Goto ["cs"])]];
   (* morf_nfa.in:648 *) DBlock "FUIVLA_START_V"
    [("cons", "FV_INTERNAL_CONS_GROUP"); ("later_v", "FV_VOWELS")]
    [StateDecl "in" None 
      [([Options [Some "V"]], Goto ["v1"])];
     StateDecl "v1" None 
      [([Options [Some "FVV"]], Goto ["v2"]);
       ([Options [Some "APOS"]; Options [Some "V"]], Goto ["v2"]);
       ([Options [None]], Goto ["cons.in_req_clus"])];
     StateDecl "v2" None 
      [([Options [Some "FVV"]], Goto ["v3"]);
       ([Options [Some "APOS"]; Options [Some "V"]], Goto ["v3"]);
       ([Options [None]], Goto ["cons.in_req_clus"])];
     StateDecl "v3" None 
      [([Options [None]], Goto ["cons.in_req_clus"])];
     StateDecl "cons.exit" None 
      [([Options [None]], Goto ["later_v.in"])];
     StateDecl "later_v.ex_single" None 
      [([Options [None]], Goto ["exit"; "cons.in"])];
     StateDecl "later_v.ex_multi" None 
      [([Options [None]], Goto ["exit"; "cons.in"])]];
   (* morf_nfa.in:684 *) DBlock "FUIVLA_START_CV"
    [("cons", "FV_INTERNAL_CONS_GROUP"); ("later_v", "FV_VOWELS")]
    [StateDecl "in" None 
      [([Options [Some "FC"]], Goto ["c"])];
     StateDecl "c" None 
      [([Options [Some "V"]], Goto ["v1"])];
     StateDecl "v1" None 
      [([Options [Some "FVV"]], Goto ["v2"]);
       ([Options [Some "APOS"]; Options [Some "V"]], Goto ["v2"]);
       ([Options [None]], Goto ["cons.in_req_clus"])];
     StateDecl "v2" None 
      [([Options [None]], Goto ["cons.in_req_clus"])];
     StateDecl "cons.exit" None 
      [([Options [None]], Goto ["later_v.in"])];
     StateDecl "later_v.ex_single" None 
      [([Options [None]], Goto ["exit"; "cons.in"])];
     StateDecl "later_v.ex_multi" None 
      [([Options [None]], Goto ["exit"; "cons.in"])]];
   (* morf_nfa.in:714 *) DBlock "FUIVLA_START_CC"
    [("init_cc", "FV_INITIAL_CLUSTER"); ("early_v", "FV_VOWELS"); ("later_c", "FV_INTERNAL_CONS_GROUP"); ("later_v", "FV_VOWELS")]
    [StateDecl "in" None 
      [([Options [Some "FC"]], Goto ["goto_slinkui"]);
       ([Options [None]], Goto ["init_cc.in"])];
     StateDecl "init_cc.exit" None 
      [([Options [None]], Goto ["early_v.in"])];
     StateDecl "early_v.ex_multi" None 
      [([Options [None]], Goto ["exit"; "later_c.in"])];
     StateDecl "early_v.ex_single" None 
      [([Options [None]], Goto ["later_c.in"])];
     StateDecl "later_c.exit" None 
      [([Options [None]], Goto ["later_v.in"])];
     StateDecl "later_v.ex_multi" None 
      [([Options [None]], Goto ["exit"; "later_c.in"])];
     StateDecl "later_v.ex_single" None 
      [([Options [None]], Goto ["exit"; "later_c.in"])]];
   (* morf_nfa.in:734 *) DBlock "STAGE3_TAIL"
    [("later_c", "FV_INTERNAL_CONS_GROUP"); ("later_v", "FV_VOWELS")]
    [StateDecl "in" None 
      [([Options [None]], Goto ["before_hyph"])];
     StateDecl "before_hyph" None 
      [([Options [Some "CSI"; Some "CS"; Some "HS"; Some "NR"]], Goto ["after_hyph"])];
     StateDecl "after_hyph" None 
      [([Options [Some "H"]], Goto ["goto_c"]);
       ([Options [Some "HS"]], Goto ["goto_s"])];
     StateDecl "goto_c" None 
      [([Options [None]], Goto ["later_c.in_after_c"])];
     StateDecl "goto_s" None 
      [([Options [None]], Goto ["later_c.in_after_s"])];
     StateDecl "later_c.exit" None 
      [([Options [None]], Goto ["later_v.in"])];
     StateDecl "later_v.ex_multi" None 
      [([Options [None]], Goto ["exit"; "later_c.in"])];
     StateDecl "later_v.ex_single" None 
      [([Options [None]], Goto ["exit"; "later_c.in"])]];
   (* morf_nfa.in:759 *) DBlock "STAGE3_SHORT"
    [("tail", "STAGE3_TAIL")]
    [StateDecl "in" None 
      [([Options [Some "CNR"]; Options [Some "V"]; Options [Some "CNR"]], Goto ["tail.in"])];
     StateDecl "tail.goto_c" (Some "AT_S3_3") [];
     StateDecl "tail.goto_s" (Some "AT_S3_3") [];
     StateDecl "tail.exit" None 
      [([Options [None]], Goto ["exit"])]];
   (* morf_nfa.in:774 *) DBlock "STAGE3_LONG"
    [("tail", "STAGE3_TAIL")]
    [StateDecl "in" None 
      [([Options [Some "C"]; Options [Some "LCI"]; Options [Some "V"]; Options [Some "CNR"]], Goto ["tail.in"]);
       ([Options [Some "CNR"]; Options [Some "V"]; Options [Some "CNR"]; Options [Some "LCP"]], Goto ["tail.in"])];
     StateDecl "tail.goto_c" (Some "AT_S3_4") [];
     StateDecl "tail.goto_s" (Some "AT_S3_4") [];
     StateDecl "tail.exit" None 
      [([Options [None]], Goto ["exit"])]];
   (* morf_nfa.in:794 *) DBlock "X_STAGE3_CC_HEAD"
    []
    [StateDecl "in" None 
      [([Options [Some "CNR"]; Options [Some "LCI"]; Options [Some "V"]; Options [Some "CNR"]], Goto ["exit"])]];
   (* morf_nfa.in:800 *) DBlock "X_STAGE3_CV_HEAD"
    []
    [StateDecl "in" None 
      [([Options [Some "CNR"]; Options [Some "V"]; Options [Some "APOS"]; Options [Some "V"]], Goto ["after_cvv"]);
       ([Options [Some "CNR"]; Options [Some "V"]; Options [Some "VV"]], Goto ["after_cvv"]);
       ([Options [Some "CNR"]; Options [Some "V"]; Options [Some "CNR"]], Goto ["after_cvc"])];
     StateDecl "after_cvv" None 
      [([Options [Some "R"]; Options [Some "CP"; Some "CS"]], Goto ["exit"]);
       ([Options [Some "N"]; Options [Some "NR"]], Goto ["exit"])];
     StateDecl "after_cvc" None 
      [([Options [Some "CP"; Some "CS"; Some "NR"]], Goto ["exit"])]];
   (* morf_nfa.in:815 *) DBlock "X_STAGE3_OTHER_RAFSI"
    []
    [StateDecl "in" None 
      [([Options [Some "LCI"]; Options [Some "V"]; Options [Some "CNR"]], Goto ["in"]);
       ([Options [Some "V"]; Options [Some "VV"]; Options [Some "CNR"]], Goto ["in"]);
       ([Options [Some "V"]; Options [Some "CNR"]; Options [Some "LCP"]], Goto ["in"]);
       ([Options [Some "V"]; Options [Some "CNR"]], Goto ["exit3"]);
       ([Options [Some "LCI"]; Options [Some "V"]; Options [Some "CNR"]], Goto ["exit4"]);
       ([Options [Some "V"]; Options [Some "CNR"]; Options [Some "LCP"]], Goto ["exit4"])]];
   (* morf_nfa.in:828 *) DBlock "X_STAGE3"
    [("cc_head", "X_STAGE3_CC_HEAD"); ("cv_head", "X_STAGE3_CV_HEAD"); ("other_rafsi", "X_STAGE3_OTHER_RAFSI"); ("short_tail", "STAGE3_TAIL"); ("long_tail", "STAGE3_TAIL")]
    [StateDecl "in" None 
      [([Options [None]], Goto ["cc_head.in"; "cv_head.in"])];
     StateDecl "cc_head.exit" None 
      [([Options [None]], Goto ["other_rafsi.in"])];
     StateDecl "cv_head.exit" None 
      [([Options [None]], Goto ["other_rafsi.in"])];
     StateDecl "other_rafsi.exit3" None 
      [([Options [None]], Goto ["short_tail.in"])];
     StateDecl "other_rafsi.exit4" None 
      [([Options [None]], Goto ["long_tail.in"])];
     StateDecl "short_tail.exit" None 
      [([Options [None]], ExitTag "TAG_X_STAGE3_CVC")];
     StateDecl "long_tail.exit" None 
      [([Options [None]], ExitTag "TAG_X_STAGE3_LONG")];
     StateDecl "short_tail.goto_c" (Some "AT_XS3_3") [];
     StateDecl "short_tail.goto_s" (Some "AT_XS3_3") [];
     StateDecl "long_tail.goto_c" (Some "AT_XS3_4") [];
     StateDecl "long_tail.goto_s" (Some "AT_XS3_4") []];
   (* morf_nfa.in:854 *) DBlock "FUIVLA"
    [("start_cc", "FUIVLA_START_CC"); ("start_cv", "FUIVLA_START_CV"); ("start_v", "FUIVLA_START_V"); ("slinkui", "SLINKUI"); ("stage3_short", "STAGE3_SHORT"); ("stage3_long", "STAGE3_LONG"); ("xstage3", "X_STAGE3")]
    [StateDecl "in_no_prefix" None 
      [([Options [None]], Goto ["start_cc.in"; "start_cv.in"; "start_v.in"; "stage3_short.in"; "stage3_long.in"; "xstage3.in"])];
     StateDecl "in_prefixed" None 
      [([Options [None]], Goto ["start_cc.in"; "start_cv.in"; "stage3_short.in"; "stage3_long.in"; "xstage3.in"])];
     StateDecl "start_cc.goto_slinkui" None 
      [([Options [None]], Goto ["slinkui.in_after_c"])];
     StateDecl "start_cc.exit" None 
      [([Options [None]], ExitTag "TAG_FUIVLA_0")];
     StateDecl "start_cv.exit" None 
      [([Options [None]], ExitTag "TAG_FUIVLA_1")];
     StateDecl "start_v.exit" None 
      [([Options [None]], ExitTag "TAG_FUIVLA_1")];
     StateDecl "stage3_short.exit" None 
      [([Options [None]], ExitTag "TAG_STAGE3_CVC")];
     StateDecl "stage3_long.exit" None 
      [([Options [None]], ExitTag "TAG_STAGE3_LONG")]];
   (* morf_nfa.in:885 *) DBlock "CMENE"
    []
    [StateDecl "in" None 
      [([Options [Some "CNR"]], Goto ["c"]);
       ([Options [Some "V"]], Goto ["v"]);
       ([Options [Some "Y"]; Options [Some "CNR"]], Goto ["c"])];
     StateDecl "c" None 
      [([Options [Some "V"]], Goto ["v"]);
       ([Options [Some "Y"]], Goto ["y"]);
       ([Options [Some "LCP"; Some "HS"; Some "H"]], Goto ["c"]);
       ([Options [None]], Goto ["exit"])];
     StateDecl "v" None 
      [([Options [Some "FVV"; Some "VY"]], Goto ["v"]);
       ([Options [Some "CNR"]], Goto ["c"]);
       ([Options [Some "APOS"]], Goto ["a"])];
     StateDecl "a" None 
      [([Options [Some "V"; Some "Y"]], Goto ["v"])];
     StateDecl "y" None 
      [([Options [Some "APOS"]], Goto ["a"]);
       ([Options [Some "VY"]], Goto ["v"]);
       ([Options [Some "YY"]], Goto ["y"]);
       ([Options [Some "LCP"; Some "HS"; Some "H"; Some "CN"; Some "BT"]], Goto ["c"]);
       ([Options [Some "CP"]; Options [Some "BT"]], Goto ["c"])];
     StateDecl "exit" None 
      [([Options [None]], ExitTag "TAG_CMENE")]];
   (* morf_nfa.in:930 *) DBlock "WORD"
    [("gismu", "GISMU"); ("lujvo", "LUJVO"); ("cultural_lujvo", "CULTURAL_LUJVO"); ("lujvo_no_y_bad_vowels", "LUJVO_NO_Y_BAD_VOWELS"); ("cms", "CMAVOSEQ"); ("cmene", "CMENE"); ("fuivla", "FUIVLA")]
    [StateDecl "in" None 
      [([Options [None]], Goto ["gismu.in"; "lujvo.in"; "cultural_lujvo.in"; "fuivla.in_no_prefix"; "cms.in"; "cmene.in"; "lujvo_no_y_bad_vowels.in"])];
     StateDecl "cms.exit_prefixable" None 
      [([Options [None]], Goto ["gismu.in"; "lujvo.in"; "cultural_lujvo.in"; "fuivla.in_prefixed"; "lujvo_no_y_bad_vowels.in"])];
     StateDecl "in" None []];
   (* morf_nfa.in:957 *) DExit (DResult "R_GISMU_0" (Some (E_SYMBOL "TAG_GISMU_0")) false);
   (* morf_nfa.in:958 *) DExit (DResult "R_GISMU_1" (Some (E_SYMBOL "TAG_GISMU_1")) false);
   (* morf_nfa.in:959 *) DExit (DSymResult "R_LUJVO_0" (E_SYMBOL "TAG_LUJVO_0") false);
   (* morf_nfa.in:960 *) DExit (DSymResult "R_LUJVO_1" (E_AND (E_SYMBOL "TAG_LUJVO_1") (E_NOT (E_SYMBOL "TAG_LUJVO_0"))) false);
   (* morf_nfa.in:961 *) DExit (DResult "R_BAD_TOSMABRU" (Some (E_AND (E_SYMBOL "TAG_LUJVO_1T") (E_NOT (E_SYMBOL "TAG_LUJVO_TAIL_OK")))) false);
   (* morf_nfa.in:964 *) DExit (DSymbol "S_LUJVO_1T" (E_AND (E_SYMBOL "TAG_LUJVO_1T") (E_SYMBOL "TAG_LUJVO_TAIL_OK")));
   (* morf_nfa.in:965 *) DExit (DResult "R_LUJVO_1" (Some (E_SYMBOL "S_LUJVO_1T")) false);
   (* morf_nfa.in:977 *) DExit (DSymbol "S_CULTURAL_0" (E_AND (E_SYMBOL "TAG_CULTURAL_LUJVO_0") (E_NOT (E_SYMBOL "TAG_LUJVO_0"))));
   (* morf_nfa.in:978 *) DExit (DSymbol "S_CULTURAL_1" (E_AND (E_SYMBOL "TAG_CULTURAL_LUJVO_1") (E_NOT (E_SYMBOL "TAG_LUJVO_1"))));
   (* morf_nfa.in:979 *) DExit (DSymbol "S_CULTURAL_1T" (E_AND (E_SYMBOL "TAG_CULTURAL_LUJVO_1T") (E_NOT (E_SYMBOL "TAG_LUJVO_1T"))));
   (* morf_nfa.in:981 *) DExit (DSymbol "S_CULTURAL_TAIL_OK" (E_SYMBOL "TAG_CULTURAL_LUJVO_TAIL_OK"));
   (* morf_nfa.in:983 *) DExit (DResult "R_CULTURAL_LUJVO_0" (Some (E_SYMBOL "S_CULTURAL_0")) false);
   (* morf_nfa.in:984 *) DExit (DResult "R_CULTURAL_LUJVO_1" (Some (E_AND (E_SYMBOL "S_CULTURAL_1") (E_NOT (E_SYMBOL "S_CULTURAL_0")))) false);
   (* morf_nfa.in:985 *) DExit (DResult "R_CULTURAL_BAD_TOSMABRU" (Some (E_AND (E_SYMBOL "S_CULTURAL_1T") (E_NOT (E_SYMBOL "S_CULTURAL_TAIL_OK")))) false);
   (* morf_nfa.in:986 *) DExit (DResult "R_CULTURAL_LUJVO_1" (Some (E_AND (E_SYMBOL "S_CULTURAL_1T") (E_SYMBOL "S_CULTURAL_TAIL_OK"))) false);
   (* morf_nfa.in:988 *) DExit (DSymbol "VALID_LUJVO" (E_OR (E_OR (E_SYMBOL "S_LUJVO_1T") (E_SYMBOL "R_LUJVO_1")) (E_SYMBOL "R_LUJVO_0")));
   (* morf_nfa.in:989 *) DExit (DSymbol "VALID_GISMU" (E_OR (E_SYMBOL "TAG_GISMU_0") (E_SYMBOL "TAG_GISMU_1")));
   (* morf_nfa.in:990 *) DExit (DSymbol "VLG" (E_OR (E_SYMBOL "VALID_LUJVO") (E_SYMBOL "VALID_GISMU")));
   (* morf_nfa.in:992 *) DExit (DResult "R_BAD_SLINKUI" (Some (E_AND (E_AND (E_AND (E_NOT (E_SYMBOL "VLG")) (E_SYMBOL "TAG_FUIVLA_0")) (E_SYMBOL "TAG_SLINKUI_0")) (E_NOT (E_SYMBOL "TAG_FUIVLA_1")))) false);
   (* morf_nfa.in:993 *) DExit (DSymbol "S_FUIVLA_0" (E_AND (E_AND (E_NOT (E_SYMBOL "VLG")) (E_SYMBOL "TAG_FUIVLA_0")) (E_NOT (E_SYMBOL "TAG_SLINKUI_0"))));
   (* morf_nfa.in:994 *) DExit (DSymbol "S_FUIVLA_1A" (E_AND (E_AND (E_AND (E_NOT (E_SYMBOL "VLG")) (E_SYMBOL "TAG_FUIVLA_0")) (E_SYMBOL "TAG_SLINKUI_0")) (E_SYMBOL "TAG_FUIVLA_1")));
   (* morf_nfa.in:995 *) DExit (DSymbol "S_FUIVLA_1B" (E_AND (E_AND (E_NOT (E_SYMBOL "VLG")) (E_NOT (E_SYMBOL "TAG_FUIVLA_0"))) (E_SYMBOL "TAG_FUIVLA_1")));
   (* morf_nfa.in:996 *) DExit (DSymbol "S_FUIVLA_1" (E_OR (E_SYMBOL "S_FUIVLA_1A") (E_SYMBOL "S_FUIVLA_1B")));
   (* morf_nfa.in:1004 *) DExit (DSymbol "ANY_STAGE3" (E_OR (E_OR (E_OR (E_SYMBOL "TAG_STAGE3_LONG") (E_SYMBOL "TAG_STAGE3_CVC")) (E_SYMBOL "TAG_X_STAGE3_CVC")) (E_SYMBOL "TAG_X_STAGE3_LONG")));
   (* morf_nfa.in:1006 *) DExit (DResult "R_STAGE3_0" (Some (E_AND (E_SYMBOL "S_FUIVLA_0") (E_SYMBOL "TAG_STAGE3_LONG"))) false);
   (* morf_nfa.in:1007 *) DExit (DResult "R_STAGE3_1" (Some (E_AND (E_SYMBOL "S_FUIVLA_1") (E_SYMBOL "TAG_STAGE3_LONG"))) false);
   (* morf_nfa.in:1008 *) DExit (DResult "R_STAGE3_1_CVC" (Some (E_AND (E_AND (E_SYMBOL "S_FUIVLA_1") (E_SYMBOL "TAG_STAGE3_CVC")) (E_NOT (E_SYMBOL "TAG_STAGE3_LONG")))) false);
   (* morf_nfa.in:1010 *) DExit (DResult "R_X_STAGE3_0" (Some (E_AND (E_SYMBOL "S_FUIVLA_0") (E_SYMBOL "TAG_X_STAGE3_LONG"))) false);
   (* morf_nfa.in:1011 *) DExit (DResult "R_X_STAGE3_0_CVC" (Some (E_AND (E_AND (E_SYMBOL "S_FUIVLA_0") (E_SYMBOL "TAG_X_STAGE3_CVC")) (E_NOT (E_SYMBOL "TAG_X_STAGE3_LONG")))) false);
   (* morf_nfa.in:1012 *) DExit (DResult "R_X_STAGE3_1" (Some (E_AND (E_SYMBOL "S_FUIVLA_1") (E_SYMBOL "TAG_X_STAGE3_LONG"))) false);
   (* morf_nfa.in:1013 *) DExit (DResult "R_X_STAGE3_1_CVC" (Some (E_AND (E_AND (E_SYMBOL "S_FUIVLA_1") (E_SYMBOL "TAG_X_STAGE3_CVC")) (E_NOT (E_SYMBOL "TAG_X_STAGE3_LONG")))) false);
   (* morf_nfa.in:1015 *) DExit (DResult "R_STAGE4_0" (Some (E_AND (E_AND (E_SYMBOL "S_FUIVLA_0") (E_NOT (E_SYMBOL "ANY_STAGE3"))) (E_NOT (E_SYMBOL "TAG_LUJVO_NO_Y_BAD_VOWELS")))) false);
   (* morf_nfa.in:1016 *) DExit (DResult "R_STAGE4_1" (Some (E_AND (E_AND (E_SYMBOL "S_FUIVLA_1") (E_NOT (E_SYMBOL "ANY_STAGE3"))) (E_NOT (E_SYMBOL "TAG_LUJVO_NO_Y_BAD_VOWELS")))) false);
   (* morf_nfa.in:1021 *) DExit (DResult "R_CMENE" (Some (E_SYMBOL "TAG_CMENE")) false);
   (* morf_nfa.in:1022 *) DExit (DResult "R_CMAVOS" (Some (E_SYMBOL "TAG_CMAVOS")) false);
   (* morf_nfa.in:1023 *) DExit (DResult "R_CMAVOS_END_CY" (Some (E_SYMBOL "TAG_CMAVOS_END_CY")) false);
   (* morf_nfa.in:1026 *) DExit (DDefault "R_UNKNOWN");
   (* morf_nfa.in:1035 *) DAttr (DResult "AT_S3_3" None false);
   (* morf_nfa.in:1036 *) DAttr (DResult "AT_S3_4" None false);
   (* morf_nfa.in:1037 *) DAttr (DResult "AT_XS3_3" None false);
   (* morf_nfa.in:1038 *) DAttr (DResult "AT_XS3_4" None false);
   (* morf_nfa.in:1041 *) DAttr (DDefault "AT_UNKNOWN")].
