(* Generated by tools/gen_grammar.py from /repo/rpc2x.y (lines 222-2339) as it is
   after uncom.l and action.perl: for each kind of node the lists of children that
   the productions give it. *)
From Coq Require Import String List.
From Verif Require Import TokData.
Import ListNotations.
Open Scope string_scope.

(* rpc2x.y, action.perl: a child that is a node of a kind, a word of a selma'o, or
   an elidable terminator that the text left out (functions.c new_elidable) *)
Inductive sym : Type := SN (ty : string) | ST (t : tok) | SE (t : tok).

(* rpc2x.y:222-2339 *)
Definition grammar : list (string * list (list sym)) :=
[
("CHUNKS",
  [[SN "TEXT"];
   [SN "CHUNKS"; SN "TEXT"]]);
("TEXT",
  [[SN "NAI_SEQ"; SN "CMENE_SEQ"; SN "FREE_SEQ"; SN "JOIK_OPT_KE"; SN "FREE_SEQ"; SN "TEXT_1"];
   [SN "NAI_SEQ"; SN "CMENE_SEQ"; SN "FREE_SEQ"; SN "JEK_OPT_KE"; SN "FREE_SEQ"; SN "TEXT_1"];
   [SN "NAI_SEQ"; SN "CMENE_SEQ"; SN "FREE_SEQ"; SN "JOIK_OPT_KE"; SN "TEXT_1"];
   [SN "NAI_SEQ"; SN "CMENE_SEQ"; SN "FREE_SEQ"; SN "JEK_OPT_KE"; SN "TEXT_1"];
   [SN "NAI_SEQ"; SN "CMENE_SEQ"; SN "FREE_SEQ"; SN "TEXT_1"];
   [SN "NAI_SEQ"; SN "CMENE_SEQ"; SN "JOIK_OPT_KE"; SN "FREE_SEQ"; SN "TEXT_1"];
   [SN "NAI_SEQ"; SN "CMENE_SEQ"; SN "JEK_OPT_KE"; SN "FREE_SEQ"; SN "TEXT_1"];
   [SN "NAI_SEQ"; SN "CMENE_SEQ"; SN "JOIK_OPT_KE"; SN "TEXT_1"];
   [SN "NAI_SEQ"; SN "CMENE_SEQ"; SN "JEK_OPT_KE"; SN "TEXT_1"];
   [SN "NAI_SEQ"; SN "CMENE_SEQ"; SN "TEXT_1"];
   [SN "NAI_SEQ"; SN "INDICATORS"; SN "FREE_SEQ"; SN "JOIK_OPT_KE"; SN "FREE_SEQ"; SN "TEXT_1"];
   [SN "NAI_SEQ"; SN "INDICATORS"; SN "FREE_SEQ"; SN "JEK_OPT_KE"; SN "FREE_SEQ"; SN "TEXT_1"];
   [SN "NAI_SEQ"; SN "INDICATORS"; SN "FREE_SEQ"; SN "JOIK_OPT_KE"; SN "TEXT_1"];
   [SN "NAI_SEQ"; SN "INDICATORS"; SN "FREE_SEQ"; SN "JEK_OPT_KE"; SN "TEXT_1"];
   [SN "NAI_SEQ"; SN "INDICATORS"; SN "FREE_SEQ"; SN "TEXT_1"];
   [SN "NAI_SEQ"; SN "INDICATORS"; SN "JOIK_OPT_KE"; SN "FREE_SEQ"; SN "TEXT_1"];
   [SN "NAI_SEQ"; SN "INDICATORS"; SN "JEK_OPT_KE"; SN "FREE_SEQ"; SN "TEXT_1"];
   [SN "NAI_SEQ"; SN "INDICATORS"; SN "JOIK_OPT_KE"; SN "TEXT_1"];
   [SN "NAI_SEQ"; SN "INDICATORS"; SN "JEK_OPT_KE"; SN "TEXT_1"];
   [SN "NAI_SEQ"; SN "INDICATORS"; SN "TEXT_1"];
   [SN "NAI_SEQ"; SN "FREE_SEQ"; SN "JOIK_OPT_KE"; SN "FREE_SEQ"; SN "TEXT_1"];
   [SN "NAI_SEQ"; SN "FREE_SEQ"; SN "JEK_OPT_KE"; SN "FREE_SEQ"; SN "TEXT_1"];
   [SN "NAI_SEQ"; SN "FREE_SEQ"; SN "JOIK_OPT_KE"; SN "TEXT_1"];
   [SN "NAI_SEQ"; SN "FREE_SEQ"; SN "JEK_OPT_KE"; SN "TEXT_1"];
   [SN "NAI_SEQ"; SN "FREE_SEQ"; SN "TEXT_1"];
   [SN "NAI_SEQ"; SN "JOIK_OPT_KE"; SN "FREE_SEQ"; SN "TEXT_1"];
   [SN "NAI_SEQ"; SN "JEK_OPT_KE"; SN "FREE_SEQ"; SN "TEXT_1"];
   [SN "NAI_SEQ"; SN "JOIK_OPT_KE"; SN "TEXT_1"];
   [SN "NAI_SEQ"; SN "JEK_OPT_KE"; SN "TEXT_1"];
   [SN "NAI_SEQ"; SN "TEXT_1"];
   [SN "CMENE_SEQ"; SN "FREE_SEQ"; SN "JOIK_OPT_KE"; SN "FREE_SEQ"; SN "TEXT_1"];
   [SN "CMENE_SEQ"; SN "FREE_SEQ"; SN "JEK_OPT_KE"; SN "FREE_SEQ"; SN "TEXT_1"];
   [SN "CMENE_SEQ"; SN "FREE_SEQ"; SN "JOIK_OPT_KE"; SN "TEXT_1"];
   [SN "CMENE_SEQ"; SN "FREE_SEQ"; SN "JEK_OPT_KE"; SN "TEXT_1"];
   [SN "CMENE_SEQ"; SN "FREE_SEQ"; SN "TEXT_1"];
   [SN "CMENE_SEQ"; SN "JOIK_OPT_KE"; SN "FREE_SEQ"; SN "TEXT_1"];
   [SN "CMENE_SEQ"; SN "JEK_OPT_KE"; SN "FREE_SEQ"; SN "TEXT_1"];
   [SN "CMENE_SEQ"; SN "JOIK_OPT_KE"; SN "TEXT_1"];
   [SN "CMENE_SEQ"; SN "JEK_OPT_KE"; SN "TEXT_1"];
   [SN "CMENE_SEQ"; SN "TEXT_1"];
   [SN "INDICATORS"; SN "FREE_SEQ"; SN "JOIK_OPT_KE"; SN "FREE_SEQ"; SN "TEXT_1"];
   [SN "INDICATORS"; SN "FREE_SEQ"; SN "JEK_OPT_KE"; SN "FREE_SEQ"; SN "TEXT_1"];
   [SN "INDICATORS"; SN "FREE_SEQ"; SN "JOIK_OPT_KE"; SN "TEXT_1"];
   [SN "INDICATORS"; SN "FREE_SEQ"; SN "JEK_OPT_KE"; SN "TEXT_1"];
   [SN "INDICATORS"; SN "FREE_SEQ"; SN "TEXT_1"];
   [SN "INDICATORS"; SN "JOIK_OPT_KE"; SN "FREE_SEQ"; SN "TEXT_1"];
   [SN "INDICATORS"; SN "JEK_OPT_KE"; SN "FREE_SEQ"; SN "TEXT_1"];
   [SN "INDICATORS"; SN "JOIK_OPT_KE"; SN "TEXT_1"];
   [SN "INDICATORS"; SN "JEK_OPT_KE"; SN "TEXT_1"];
   [SN "INDICATORS"; SN "TEXT_1"];
   [SN "FREE_SEQ"; SN "JOIK_OPT_KE"; SN "FREE_SEQ"; SN "TEXT_1"];
   [SN "FREE_SEQ"; SN "JEK_OPT_KE"; SN "FREE_SEQ"; SN "TEXT_1"];
   [SN "FREE_SEQ"; SN "JOIK_OPT_KE"; SN "TEXT_1"];
   [SN "FREE_SEQ"; SN "JEK_OPT_KE"; SN "TEXT_1"];
   [SN "FREE_SEQ"; SN "TEXT_1"];
   [SN "JOIK_OPT_KE"; SN "FREE_SEQ"; SN "TEXT_1"];
   [SN "JEK_OPT_KE"; SN "FREE_SEQ"; SN "TEXT_1"];
   [SN "JOIK_OPT_KE"; SN "TEXT_1"];
   [SN "JEK_OPT_KE"; SN "TEXT_1"];
   [SN "TEXT_1"]]);
("TEXT_NO_TEXT_1",
  [[SN "NAI_SEQ"; SN "CMENE_SEQ"; SN "FREE_SEQ"; SN "JOIK_OPT_KE"; SN "FREE_SEQ"];
   [SN "NAI_SEQ"; SN "CMENE_SEQ"; SN "FREE_SEQ"; SN "JEK_OPT_KE"; SN "FREE_SEQ"];
   [SN "NAI_SEQ"; SN "CMENE_SEQ"; SN "FREE_SEQ"; SN "JOIK_OPT_KE"];
   [SN "NAI_SEQ"; SN "CMENE_SEQ"; SN "FREE_SEQ"; SN "JEK_OPT_KE"];
   [SN "NAI_SEQ"; SN "CMENE_SEQ"; SN "FREE_SEQ"];
   [SN "NAI_SEQ"; SN "CMENE_SEQ"; SN "JOIK_OPT_KE"; SN "FREE_SEQ"];
   [SN "NAI_SEQ"; SN "CMENE_SEQ"; SN "JEK_OPT_KE"; SN "FREE_SEQ"];
   [SN "NAI_SEQ"; SN "CMENE_SEQ"; SN "JOIK_OPT_KE"];
   [SN "NAI_SEQ"; SN "CMENE_SEQ"; SN "JEK_OPT_KE"];
   [SN "NAI_SEQ"; SN "CMENE_SEQ"];
   [SN "NAI_SEQ"; SN "INDICATORS"; SN "FREE_SEQ"; SN "JOIK_OPT_KE"; SN "FREE_SEQ"];
   [SN "NAI_SEQ"; SN "INDICATORS"; SN "FREE_SEQ"; SN "JEK_OPT_KE"; SN "FREE_SEQ"];
   [SN "NAI_SEQ"; SN "INDICATORS"; SN "FREE_SEQ"; SN "JOIK_OPT_KE"];
   [SN "NAI_SEQ"; SN "INDICATORS"; SN "FREE_SEQ"; SN "JEK_OPT_KE"];
   [SN "NAI_SEQ"; SN "INDICATORS"; SN "FREE_SEQ"];
   [SN "NAI_SEQ"; SN "INDICATORS"; SN "JOIK_OPT_KE"; SN "FREE_SEQ"];
   [SN "NAI_SEQ"; SN "INDICATORS"; SN "JEK_OPT_KE"; SN "FREE_SEQ"];
   [SN "NAI_SEQ"; SN "INDICATORS"; SN "JOIK_OPT_KE"];
   [SN "NAI_SEQ"; SN "INDICATORS"; SN "JEK_OPT_KE"];
   [SN "NAI_SEQ"; SN "INDICATORS"];
   [SN "NAI_SEQ"; SN "FREE_SEQ"; SN "JOIK_OPT_KE"; SN "FREE_SEQ"];
   [SN "NAI_SEQ"; SN "FREE_SEQ"; SN "JEK_OPT_KE"; SN "FREE_SEQ"];
   [SN "NAI_SEQ"; SN "FREE_SEQ"; SN "JOIK_OPT_KE"];
   [SN "NAI_SEQ"; SN "FREE_SEQ"; SN "JEK_OPT_KE"];
   [SN "NAI_SEQ"; SN "FREE_SEQ"];
   [SN "NAI_SEQ"; SN "JOIK_OPT_KE"; SN "FREE_SEQ"];
   [SN "NAI_SEQ"; SN "JEK_OPT_KE"; SN "FREE_SEQ"];
   [SN "NAI_SEQ"; SN "JOIK_OPT_KE"];
   [SN "NAI_SEQ"; SN "JEK_OPT_KE"];
   [SN "NAI_SEQ"];
   [SN "CMENE_SEQ"; SN "FREE_SEQ"; SN "JOIK_OPT_KE"; SN "FREE_SEQ"];
   [SN "CMENE_SEQ"; SN "FREE_SEQ"; SN "JEK_OPT_KE"; SN "FREE_SEQ"];
   [SN "CMENE_SEQ"; SN "FREE_SEQ"; SN "JOIK_OPT_KE"];
   [SN "CMENE_SEQ"; SN "FREE_SEQ"; SN "JEK_OPT_KE"];
   [SN "CMENE_SEQ"; SN "FREE_SEQ"];
   [SN "CMENE_SEQ"; SN "JOIK_OPT_KE"; SN "FREE_SEQ"];
   [SN "CMENE_SEQ"; SN "JEK_OPT_KE"; SN "FREE_SEQ"];
   [SN "CMENE_SEQ"; SN "JOIK_OPT_KE"];
   [SN "CMENE_SEQ"; SN "JEK_OPT_KE"];
   [SN "CMENE_SEQ"];
   [SN "INDICATORS"; SN "FREE_SEQ"; SN "JOIK_OPT_KE"; SN "FREE_SEQ"];
   [SN "INDICATORS"; SN "FREE_SEQ"; SN "JEK_OPT_KE"; SN "FREE_SEQ"];
   [SN "INDICATORS"; SN "FREE_SEQ"; SN "JOIK_OPT_KE"];
   [SN "INDICATORS"; SN "FREE_SEQ"; SN "JEK_OPT_KE"];
   [SN "INDICATORS"; SN "FREE_SEQ"];
   [SN "INDICATORS"; SN "JOIK_OPT_KE"; SN "FREE_SEQ"];
   [SN "INDICATORS"; SN "JEK_OPT_KE"; SN "FREE_SEQ"];
   [SN "INDICATORS"; SN "JOIK_OPT_KE"];
   [SN "INDICATORS"; SN "JEK_OPT_KE"];
   [SN "INDICATORS"];
   [SN "FREE_SEQ"; SN "JOIK_OPT_KE"; SN "FREE_SEQ"];
   [SN "FREE_SEQ"; SN "JEK_OPT_KE"; SN "FREE_SEQ"];
   [SN "FREE_SEQ"; SN "JOIK_OPT_KE"];
   [SN "FREE_SEQ"; SN "JEK_OPT_KE"];
   [SN "FREE_SEQ"];
   [SN "JOIK_OPT_KE"; SN "FREE_SEQ"];
   [SN "JEK_OPT_KE"; SN "FREE_SEQ"];
   [SN "JOIK_OPT_KE"];
   [SN "JEK_OPT_KE"]]);
("TEXT_1",
  [[SN "TEXT_1A"; SN "PARAGRAPHS"];
   [SN "TEXT_1A"];
   [SN "PARAGRAPHS"];
   []]);
("TEXT_1A",
  [[SN "TEXT_1B"];
   [SN "NIHO_SEQ_FREE_SEQ"]]);
("TEXT_1B",
  [[SN "TEXT_1C"];
   [SN "TEXT_1B"; SN "TEXT_1C"]]);
("TEXT_1C",
  [[ST T_I; SN "JOIK"; SN "STAG"; ST T_BO; SN "FREE_SEQ"];
   [ST T_I; SN "JEK"; SN "STAG"; ST T_BO; SN "FREE_SEQ"];
   [ST T_I; SN "STAG"; ST T_BO; SN "FREE_SEQ"];
   [ST T_I; SN "JOIK"; SN "STAG"; ST T_BO];
   [ST T_I; SN "JEK"; SN "STAG"; ST T_BO];
   [ST T_I; SN "STAG"; ST T_BO];
   [ST T_I; SN "JOIK"; ST T_BO; SN "FREE_SEQ"];
   [ST T_I; SN "JEK"; ST T_BO; SN "FREE_SEQ"];
   [ST T_I; ST T_BO; SN "FREE_SEQ"];
   [ST T_I; SN "JOIK"; ST T_BO];
   [ST T_I; SN "JEK"; ST T_BO];
   [ST T_I; ST T_BO];
   [ST T_I; SN "JOIK_OPT_KE"; SN "FREE_SEQ"];
   [ST T_I; SN "JEK_OPT_KE"; SN "FREE_SEQ"];
   [ST T_I; SN "FREE_SEQ"];
   [ST T_I; SN "JOIK_OPT_KE"];
   [ST T_I; SN "JEK_OPT_KE"];
   [ST T_I]]);
("PARAGRAPHS",
  [[SN "PARAGRAPH"];
   [SN "PARAGRAPHS"; SN "NIHO_SEQ_FREE_SEQ"; SN "PARAGRAPH"]]);
("PARAGRAPH",
  [[SN "STATEMENT"];
   [SN "FRAGMENT"];
   [SN "PARAGRAPH"; SN "I_OPT_FREE_SEQ"; SN "STATEMENT"];
   [SN "PARAGRAPH"; SN "I_OPT_FREE_SEQ"; SN "FRAGMENT"];
   [SN "PARAGRAPH"; SN "I_OPT_FREE_SEQ"]]);
("I_OPT_FREE_SEQ",
  [[ST T_I];
   [ST T_I; SN "FREE_SEQ"]]);
("STATEMENT",
  [[SN "INNER_STATEMENT"]]);
("INNER_STATEMENT",
  [[SN "STATEMENT_1"];
   [SN "PRENEX"; SN "INNER_STATEMENT"]]);
("STATEMENT_1",
  [[SN "STATEMENT_2"];
   [SN "STATEMENT_1"; SN "I_JOIK_JEK"; SN "STATEMENT_2"];
   [SN "STATEMENT_1"; SN "I_JOIK_JEK"]]);
("I_JOIK_JEK",
  [[ST T_I; SN "JOIK_OPT_KE"; SN "FREE_SEQ"];
   [ST T_I; SN "JOIK_OPT_KE"];
   [ST T_I; SN "JEK_OPT_KE"; SN "FREE_SEQ"];
   [ST T_I; SN "JEK_OPT_KE"]]);
("STATEMENT_2",
  [[SN "STATEMENT_3"];
   [SN "STATEMENT_3"; SN "I_JJ_STAG_BO"];
   [SN "STATEMENT_3"; SN "I_JJ_STAG_BO"; SN "STATEMENT_2"]]);
("I_JJ_STAG_BO",
  [[ST T_I; SN "JOIK"; SN "STAG"; ST T_BO; SN "FREE_SEQ"];
   [ST T_I; SN "JOIK"; SN "STAG"; ST T_BO];
   [ST T_I; SN "JOIK"; ST T_BO; SN "FREE_SEQ"];
   [ST T_I; SN "JOIK"; ST T_BO];
   [ST T_I; SN "JEK"; SN "STAG"; ST T_BO; SN "FREE_SEQ"];
   [ST T_I; SN "JEK"; SN "STAG"; ST T_BO];
   [ST T_I; SN "JEK"; ST T_BO; SN "FREE_SEQ"];
   [ST T_I; SN "JEK"; ST T_BO];
   [ST T_I; SN "STAG"; ST T_BO; SN "FREE_SEQ"];
   [ST T_I; SN "STAG"; ST T_BO];
   [ST T_I; ST T_BO; SN "FREE_SEQ"];
   [ST T_I; ST T_BO]]);
("STATEMENT_3",
  [[SN "SENTENCE"];
   [SN "TAG"; ST T_TUhE; SN "FREE_SEQ"; SN "TEXT_1"; ST T_TUhU; SN "FREE_SEQ"];
   [SN "TAG"; ST T_TUhE; SN "FREE_SEQ"; SN "TEXT_1"; ST T_TUhU];
   [SN "TAG"; ST T_TUhE; SN "FREE_SEQ"; SN "TEXT_1"; SE T_TUhU];
   [SN "TAG"; ST T_TUhE; SN "TEXT_1"; ST T_TUhU; SN "FREE_SEQ"];
   [SN "TAG"; ST T_TUhE; SN "TEXT_1"; ST T_TUhU];
   [SN "TAG"; ST T_TUhE; SN "TEXT_1"; SE T_TUhU];
   [ST T_TUhE; SN "FREE_SEQ"; SN "TEXT_1"; ST T_TUhU; SN "FREE_SEQ"];
   [ST T_TUhE; SN "FREE_SEQ"; SN "TEXT_1"; ST T_TUhU];
   [ST T_TUhE; SN "FREE_SEQ"; SN "TEXT_1"; SE T_TUhU];
   [ST T_TUhE; SN "TEXT_1"; ST T_TUhU; SN "FREE_SEQ"];
   [ST T_TUhE; SN "TEXT_1"; ST T_TUhU];
   [ST T_TUhE; SN "TEXT_1"; SE T_TUhU]]);
("FRAGMENT",
  [[SN "EK"; SN "FREE_SEQ"];
   [SN "EK"];
   [SN "GIHEK"; SN "FREE_SEQ"];
   [SN "GIHEK"];
   [SN "QUANTIFIER"];
   [ST T_NA; SN "FREE_SEQ"];
   [ST T_NA];
   [SN "TERMS"; ST T_VAU; SN "FREE_SEQ"];
   [SN "TERMS"; ST T_VAU];
   [SN "TERMS"; SE T_VAU];
   [SN "PRENEX"];
   [SN "RELATIVE_CLAUSES"];
   [SN "LINKS"];
   [SN "LINKARGS"]]);
("PRENEX",
  [[SN "TERMS"; ST T_ZOhU; SN "FREE_SEQ"];
   [SN "TERMS"; ST T_ZOhU]]);
("SENTENCE",
  [[SN "TERMS"; ST T_CU; SN "FREE_SEQ"; SN "BRIDI_TAIL"];
   [SN "TERMS"; ST T_CU; SN "BRIDI_TAIL"];
   [SN "NO_CU_SENTENCE"];
   [SN "OBSERVATIVE_SENTENCE"]]);
("NO_CU_SENTENCE",
  [[SN "TERMS"; SE T_CU; SN "BRIDI_TAIL"]]);
("OBSERVATIVE_SENTENCE",
  [[SN "BRIDI_TAIL"]]);
("SUBSENTENCE",
  [[SN "SENTENCE"];
   [SN "PRENEX"; SN "SUBSENTENCE"]]);
("BRIDI_TAIL",
  [[SN "BRIDI_TAIL_1"];
   [SN "BRIDI_TAIL_1"; SN "GIHEK_STAG_KE"; ST T_KE; SN "FREE_SEQ"; SN "BRIDI_TAIL"; ST T_KEhE; SN "FREE_SEQ"; SN "TAIL_TERMS"];
   [SN "BRIDI_TAIL_1"; SN "GIHEK_STAG_KE"; ST T_KE; SN "FREE_SEQ"; SN "BRIDI_TAIL"; ST T_KEhE; SN "FREE_SEQ"; SE T_VAU];
   [SN "BRIDI_TAIL_1"; SN "GIHEK_STAG_KE"; ST T_KE; SN "FREE_SEQ"; SN "BRIDI_TAIL"; ST T_KEhE; SN "TAIL_TERMS"];
   [SN "BRIDI_TAIL_1"; SN "GIHEK_STAG_KE"; ST T_KE; SN "FREE_SEQ"; SN "BRIDI_TAIL"; ST T_KEhE; SE T_VAU];
   [SN "BRIDI_TAIL_1"; SN "GIHEK_STAG_KE"; ST T_KE; SN "FREE_SEQ"; SN "BRIDI_TAIL"; SE T_KEhE; SN "TAIL_TERMS"];
   [SN "BRIDI_TAIL_1"; SN "GIHEK_STAG_KE"; ST T_KE; SN "FREE_SEQ"; SN "BRIDI_TAIL"; SE T_KEhE; SE T_VAU];
   [SN "BRIDI_TAIL_1"; SN "GIHEK_STAG_KE"; ST T_KE; SN "BRIDI_TAIL"; ST T_KEhE; SN "FREE_SEQ"; SN "TAIL_TERMS"];
   [SN "BRIDI_TAIL_1"; SN "GIHEK_STAG_KE"; ST T_KE; SN "BRIDI_TAIL"; ST T_KEhE; SN "FREE_SEQ"; SE T_VAU];
   [SN "BRIDI_TAIL_1"; SN "GIHEK_STAG_KE"; ST T_KE; SN "BRIDI_TAIL"; ST T_KEhE; SN "TAIL_TERMS"];
   [SN "BRIDI_TAIL_1"; SN "GIHEK_STAG_KE"; ST T_KE; SN "BRIDI_TAIL"; ST T_KEhE; SE T_VAU];
   [SN "BRIDI_TAIL_1"; SN "GIHEK_STAG_KE"; ST T_KE; SN "BRIDI_TAIL"; SE T_KEhE; SN "TAIL_TERMS"];
   [SN "BRIDI_TAIL_1"; SN "GIHEK_STAG_KE"; ST T_KE; SN "BRIDI_TAIL"; SE T_VAU]]);
("GIHEK_STAG_KE",
  [[SN "GIHEK"; SN "STAG"];
   [SN "GIHEK"]]);
("BRIDI_TAIL_1",
  [[SN "BRIDI_TAIL_2"];
   [SN "BRIDI_TAIL_1"; SN "GIHEK"; SN "FREE_SEQ"; SN "BRIDI_TAIL_2"; SN "TAIL_TERMS"];
   [SN "BRIDI_TAIL_1"; SN "GIHEK"; SN "FREE_SEQ"; SN "BRIDI_TAIL_2"; SE T_VAU];
   [SN "BRIDI_TAIL_1"; SN "GIHEK"; SN "BRIDI_TAIL_2"; SN "TAIL_TERMS"];
   [SN "BRIDI_TAIL_1"; SN "GIHEK"; SN "BRIDI_TAIL_2"; SE T_VAU]]);
("BRIDI_TAIL_2",
  [[SN "BRIDI_TAIL_3"];
   [SN "BRIDI_TAIL_2"; SN "GIHEK_STAG_BO"; SN "BRIDI_TAIL_2"; SN "TAIL_TERMS"];
   [SN "BRIDI_TAIL_2"; SN "GIHEK_STAG_BO"; SN "BRIDI_TAIL_2"; SE T_VAU]]);
("GIHEK_STAG_BO",
  [[SN "GIHEK"; SN "STAG"; ST T_BO; SN "FREE_SEQ"];
   [SN "GIHEK"; SN "STAG"; ST T_BO];
   [SN "GIHEK"; ST T_BO; SN "FREE_SEQ"];
   [SN "GIHEK"; ST T_BO]]);
("BRIDI_TAIL_3",
  [[SN "MAIN_SELBRI"; SN "TAIL_TERMS"];
   [SN "MAIN_SELBRI"; SE T_VAU];
   [SN "GEK_SENTENCE"]]);
("MAIN_SELBRI",
  [[SN "SELBRI"]]);
("TAIL_TERMS",
  [[SN "TERMS"; ST T_VAU; SN "FREE_SEQ"];
   [SN "TERMS"; ST T_VAU];
   [SN "TERMS"; SE T_VAU];
   [ST T_VAU; SN "FREE_SEQ"];
   [ST T_VAU]]);
("GEK_SENTENCE",
  [[SN "GEK"; SN "SUBSENTENCE"; SN "GIK"; SN "SUBSENTENCE"; SN "TAIL_TERMS"];
   [SN "GEK"; SN "SUBSENTENCE"; SN "GIK"; SN "SUBSENTENCE"; SE T_VAU];
   [SN "TAG"; ST T_KE; SN "FREE_SEQ"; SN "GEK_SENTENCE"; ST T_KEhE; SN "FREE_SEQ"];
   [SN "TAG"; ST T_KE; SN "FREE_SEQ"; SN "GEK_SENTENCE"; ST T_KEhE];
   [SN "TAG"; ST T_KE; SN "FREE_SEQ"; SN "GEK_SENTENCE"; SE T_KEhE];
   [SN "TAG"; ST T_KE; SN "GEK_SENTENCE"; ST T_KEhE; SN "FREE_SEQ"];
   [SN "TAG"; ST T_KE; SN "GEK_SENTENCE"; ST T_KEhE];
   [SN "TAG"; ST T_KE; SN "GEK_SENTENCE"; SE T_KEhE];
   [ST T_KE; SN "FREE_SEQ"; SN "GEK_SENTENCE"; ST T_KEhE; SN "FREE_SEQ"];
   [ST T_KE; SN "FREE_SEQ"; SN "GEK_SENTENCE"; ST T_KEhE];
   [ST T_KE; SN "FREE_SEQ"; SN "GEK_SENTENCE"; SE T_KEhE];
   [ST T_KE; SN "GEK_SENTENCE"; ST T_KEhE; SN "FREE_SEQ"];
   [ST T_KE; SN "GEK_SENTENCE"; ST T_KEhE];
   [ST T_KE; SN "GEK_SENTENCE"; SE T_KEhE];
   [ST T_NA; SN "FREE_SEQ"; SN "GEK_SENTENCE"];
   [ST T_NA; SN "GEK_SENTENCE"]]);
("TERMS",
  [[SN "TERMS_1"];
   [SN "TERMS"; SN "TERMS_1"]]);
("TERMS_1",
  [[SN "TERMS_2"];
   [SN "TERMS_1"; ST T_PEhE; SN "FREE_SEQ"; SN "JOIK"; SN "FREE_SEQ"; SN "TERMS_2"];
   [SN "TERMS_1"; ST T_PEhE; SN "FREE_SEQ"; SN "JOIK"; SN "TERMS_2"];
   [SN "TERMS_1"; ST T_PEhE; SN "FREE_SEQ"; SN "JEK"; SN "FREE_SEQ"; SN "TERMS_2"];
   [SN "TERMS_1"; ST T_PEhE; SN "FREE_SEQ"; SN "JEK"; SN "TERMS_2"];
   [SN "TERMS_1"; ST T_PEhE; SN "JOIK"; SN "FREE_SEQ"; SN "TERMS_2"];
   [SN "TERMS_1"; ST T_PEhE; SN "JOIK"; SN "TERMS_2"];
   [SN "TERMS_1"; ST T_PEhE; SN "JEK"; SN "FREE_SEQ"; SN "TERMS_2"];
   [SN "TERMS_1"; ST T_PEhE; SN "JEK"; SN "TERMS_2"]]);
("TERMS_2",
  [[SN "TERM"];
   [SN "TERMS_2"; ST T_CEhE; SN "FREE_SEQ"; SN "TERM"];
   [SN "TERMS_2"; ST T_CEhE; SN "TERM"]]);
("TERM",
  [[SN "TERM_PLAIN_SUMTI"];
   [SN "TERM_TAGGED_SUMTI"];
   [SN "TERM_PLACED_SUMTI"];
   [SN "TERM_FLOATING_TENSE"];
   [SN "TERMSET"];
   [SN "TAGGED_TERMSET"];
   [SN "TERM_FLOATING_NEGATE"];
   [SN "TERM_OTHER"]]);
("TERM_PLAIN_SUMTI",
  [[SN "SUMTI"]]);
("TERM_PLACED_SUMTI",
  [[ST T_FA; SN "FREE_SEQ"; SN "SUMTI"];
   [ST T_FA; SN "SUMTI"]]);
("TERM_TAGGED_SUMTI",
  [[SN "TAG"; SN "SUMTI"]]);
("TAGGED_TERMSET",
  [[SN "TAG"; SN "TERMSET"]]);
("TERM_FLOATING_TENSE",
  [[SN "TAG"; ST T_KU; SN "FREE_SEQ"];
   [SN "TAG"; ST T_KU];
   [SN "TAG"; SE T_KU]]);
("TERM_FLOATING_NEGATE",
  [[ST T_NA; ST T_KU; SN "FREE_SEQ"];
   [ST T_NA; ST T_KU]]);
("TERM_OTHER",
  [[ST T_FA; SN "FREE_SEQ"; ST T_KU; SN "FREE_SEQ"];
   [ST T_FA; SN "FREE_SEQ"; ST T_KU];
   [ST T_FA; SN "FREE_SEQ"; SE T_KU];
   [ST T_FA; ST T_KU; SN "FREE_SEQ"];
   [ST T_FA; ST T_KU];
   [ST T_FA; SE T_KU]]);
("TERMSET",
  [[SN "TERMSET_START"; SN "GEK"; SN "TERMSET_BODY"; SN "GIK"; SN "TERMSET_BODY"];
   [SN "TERMSET_START"; SN "TERMSET_BODY"]]);
("TERMSET_START",
  [[ST T_NUhI; SN "FREE_SEQ"];
   [ST T_NUhI]]);
("TERMSET_BODY",
  [[SN "TERMS"; ST T_NUhU; SN "FREE_SEQ"];
   [SN "TERMS"; ST T_NUhU];
   [SN "TERMS"; SE T_NUhU]]);
("SUMTI",
  [[SN "SUMTI_1"];
   [SN "SUMTI_1"; ST T_VUhO; SN "FREE_SEQ"; SN "RELATIVE_CLAUSES"];
   [SN "SUMTI_1"; ST T_VUhO; SN "RELATIVE_CLAUSES"]]);
("SUMTI_1",
  [[SN "SUMTI_2"];
   [SN "SUMTI_2"; SN "JOIK_EK_KE"; SN "KE_SUMTI"]]);
("JOIK_EK_KE",
  [[SN "JOIK"; SN "STAG"];
   [SN "JOIK"];
   [SN "EK"; SN "STAG"];
   [SN "EK"]]);
("KE_SUMTI",
  [[ST T_KE; SN "FREE_SEQ"; SN "SUMTI"; ST T_KEhE; SN "FREE_SEQ"];
   [ST T_KE; SN "FREE_SEQ"; SN "SUMTI"; ST T_KEhE];
   [ST T_KE; SN "FREE_SEQ"; SN "SUMTI"; SE T_KEhE];
   [ST T_KE; SN "SUMTI"; ST T_KEhE; SN "FREE_SEQ"];
   [ST T_KE; SN "SUMTI"; ST T_KEhE];
   [ST T_KE; SN "SUMTI"; SE T_KEhE]]);
("SUMTI_2",
  [[SN "SUMTI_3"];
   [SN "SUMTI_2"; SN "JOIK"; SN "FREE_SEQ"; SN "SUMTI_3"];
   [SN "SUMTI_2"; SN "JOIK"; SN "SUMTI_3"];
   [SN "SUMTI_2"; SN "EK"; SN "FREE_SEQ"; SN "SUMTI_3"];
   [SN "SUMTI_2"; SN "EK"; SN "SUMTI_3"]]);
("SUMTI_3",
  [[SN "SUMTI_4"];
   [SN "SUMTI_4"; SN "JOIK_EK_STAG_BO"; SN "SUMTI_3"]]);
("JOIK_EK_STAG_BO",
  [[SN "JOIK"; SN "STAG"; ST T_BO; SN "FREE_SEQ"];
   [SN "JOIK"; SN "STAG"; ST T_BO];
   [SN "JOIK"; ST T_BO; SN "FREE_SEQ"];
   [SN "JOIK"; ST T_BO];
   [SN "EK"; SN "STAG"; ST T_BO; SN "FREE_SEQ"];
   [SN "EK"; SN "STAG"; ST T_BO];
   [SN "EK"; ST T_BO; SN "FREE_SEQ"];
   [SN "EK"; ST T_BO]]);
("SUMTI_4",
  [[SN "SUMTI_5"];
   [SN "GEK"; SN "SUMTI"; SN "GIK"; SN "SUMTI_4"]]);
("SUMTI_5",
  [[SN "SUMTI_5A"; SN "RELATIVE_CLAUSES"];
   [SN "SUMTI_5A"];
   [SN "SUMTI_5B"; SN "RELATIVE_CLAUSES"];
   [SN "SUMTI_5B"]]);
("SUMTI_5A",
  [[SN "QUANTIFIER"; SN "SUMTI_6"];
   [SN "SUMTI_6"]]);
("SUMTI_5B",
  [[SN "QUANTIFIER"; SN "SELBRI"; ST T_KU; SN "FREE_SEQ"];
   [SN "QUANTIFIER"; SN "SELBRI"; ST T_KU];
   [SN "QUANTIFIER"; SN "SELBRI"; SE T_KU]]);
("SUMTI_6",
  [[SN "LAHE_SUMTI_6"];
   [SN "NAHE_BO_SUMTI_6"];
   [ST T_KOhA; SN "FREE_SEQ"];
   [ST T_KOhA];
   [SN "LERFU_STRING"; ST T_BOI; SN "FREE_SEQ"];
   [SN "LERFU_STRING"; ST T_BOI];
   [SN "LERFU_STRING"; SE T_BOI];
   [ST T_LE; SN "FREE_SEQ"; SN "SUMTI_TAIL"; ST T_KU; SN "FREE_SEQ"];
   [ST T_LE; SN "FREE_SEQ"; SN "SUMTI_TAIL"; ST T_KU];
   [ST T_LE; SN "FREE_SEQ"; SN "SUMTI_TAIL"; SE T_KU];
   [ST T_LE; SN "SUMTI_TAIL"; ST T_KU; SN "FREE_SEQ"];
   [ST T_LE; SN "SUMTI_TAIL"; ST T_KU];
   [ST T_LE; SN "SUMTI_TAIL"; SE T_KU];
   [ST T_LA; SN "FREE_SEQ"; SN "SUMTI_TAIL"; ST T_KU; SN "FREE_SEQ"];
   [ST T_LA; SN "FREE_SEQ"; SN "SUMTI_TAIL"; ST T_KU];
   [ST T_LA; SN "FREE_SEQ"; SN "SUMTI_TAIL"; SE T_KU];
   [ST T_LA; SN "SUMTI_TAIL"; ST T_KU; SN "FREE_SEQ"];
   [ST T_LA; SN "SUMTI_TAIL"; ST T_KU];
   [ST T_LA; SN "SUMTI_TAIL"; SE T_KU];
   [SN "NAME_SUMTI_6"];
   [ST T_LI; SN "FREE_SEQ"; SN "MEX"; ST T_LOhO; SN "FREE_SEQ"];
   [ST T_LI; SN "FREE_SEQ"; SN "MEX"; ST T_LOhO];
   [ST T_LI; SN "FREE_SEQ"; SN "MEX"; SE T_LOhO];
   [ST T_LI; SN "MEX"; ST T_LOhO; SN "FREE_SEQ"];
   [ST T_LI; SN "MEX"; ST T_LOhO];
   [ST T_LI; SN "MEX"; SE T_LOhO];
   [ST T_ZO; SN "FREE_SEQ"];
   [ST T_ZO];
   [ST T_LU; SN "TEXT"; ST T_LIhU; SN "FREE_SEQ"];
   [ST T_LU; SN "TEXT"; ST T_LIhU];
   [ST T_LU; SN "TEXT"; SE T_LIhU];
   [ST T_LOhU; SN "FREE_SEQ"];
   [ST T_LOhU];
   [ST T_ZOI; SN "FREE_SEQ"];
   [ST T_ZOI]]);
("LAHE_SUMTI_6",
  [[ST T_LAhE; SN "FREE_SEQ"; SN "RELATIVE_CLAUSES"; SN "SUMTI"; ST T_LUhU; SN "FREE_SEQ"];
   [ST T_LAhE; SN "FREE_SEQ"; SN "RELATIVE_CLAUSES"; SN "SUMTI"; ST T_LUhU];
   [ST T_LAhE; SN "FREE_SEQ"; SN "RELATIVE_CLAUSES"; SN "SUMTI"; SE T_LUhU];
   [ST T_LAhE; SN "FREE_SEQ"; SN "SUMTI"; ST T_LUhU; SN "FREE_SEQ"];
   [ST T_LAhE; SN "FREE_SEQ"; SN "SUMTI"; ST T_LUhU];
   [ST T_LAhE; SN "FREE_SEQ"; SN "SUMTI"; SE T_LUhU];
   [ST T_LAhE; SN "RELATIVE_CLAUSES"; SN "SUMTI"; ST T_LUhU; SN "FREE_SEQ"];
   [ST T_LAhE; SN "RELATIVE_CLAUSES"; SN "SUMTI"; ST T_LUhU];
   [ST T_LAhE; SN "RELATIVE_CLAUSES"; SN "SUMTI"; SE T_LUhU];
   [ST T_LAhE; SN "SUMTI"; ST T_LUhU; SN "FREE_SEQ"];
   [ST T_LAhE; SN "SUMTI"; ST T_LUhU];
   [ST T_LAhE; SN "SUMTI"; SE T_LUhU]]);
("NAHE_BO_SUMTI_6",
  [[ST T_NAhE; ST T_BO; SN "FREE_SEQ"; SN "RELATIVE_CLAUSES"; SN "SUMTI"; ST T_LUhU; SN "FREE_SEQ"];
   [ST T_NAhE; ST T_BO; SN "FREE_SEQ"; SN "RELATIVE_CLAUSES"; SN "SUMTI"; ST T_LUhU];
   [ST T_NAhE; ST T_BO; SN "FREE_SEQ"; SN "RELATIVE_CLAUSES"; SN "SUMTI"; SE T_LUhU];
   [ST T_NAhE; ST T_BO; SN "FREE_SEQ"; SN "SUMTI"; ST T_LUhU; SN "FREE_SEQ"];
   [ST T_NAhE; ST T_BO; SN "FREE_SEQ"; SN "SUMTI"; ST T_LUhU];
   [ST T_NAhE; ST T_BO; SN "FREE_SEQ"; SN "SUMTI"; SE T_LUhU];
   [ST T_NAhE; ST T_BO; SN "RELATIVE_CLAUSES"; SN "SUMTI"; ST T_LUhU; SN "FREE_SEQ"];
   [ST T_NAhE; ST T_BO; SN "RELATIVE_CLAUSES"; SN "SUMTI"; ST T_LUhU];
   [ST T_NAhE; ST T_BO; SN "RELATIVE_CLAUSES"; SN "SUMTI"; SE T_LUhU];
   [ST T_NAhE; ST T_BO; SN "SUMTI"; ST T_LUhU; SN "FREE_SEQ"];
   [ST T_NAhE; ST T_BO; SN "SUMTI"; ST T_LUhU];
   [ST T_NAhE; ST T_BO; SN "SUMTI"; SE T_LUhU]]);
("NAME_SUMTI_6",
  [[ST T_LA; SN "FREE_SEQ"; SN "RELATIVE_CLAUSES"; SN "CMENE_SEQ"; SN "FREE_SEQ"];
   [ST T_LA; SN "FREE_SEQ"; SN "RELATIVE_CLAUSES"; SN "CMENE_SEQ"];
   [ST T_LA; SN "FREE_SEQ"; SN "CMENE_SEQ"; SN "FREE_SEQ"];
   [ST T_LA; SN "FREE_SEQ"; SN "CMENE_SEQ"];
   [ST T_LA; SN "RELATIVE_CLAUSES"; SN "CMENE_SEQ"; SN "FREE_SEQ"];
   [ST T_LA; SN "RELATIVE_CLAUSES"; SN "CMENE_SEQ"];
   [ST T_LA; SN "CMENE_SEQ"; SN "FREE_SEQ"];
   [ST T_LA; SN "CMENE_SEQ"]]);
("SUMTI_TAIL",
  [[SN "SUMTI_6"; SN "RELATIVE_CLAUSES"; SN "SUMTI_TAIL_1"];
   [SN "SUMTI_6"; SN "SUMTI_TAIL_1"];
   [SN "SUMTI_TAIL_1"];
   [SN "RELATIVE_CLAUSES"; SN "SUMTI_TAIL_1"]]);
("SUMTI_TAIL_1",
  [[SN "SUMTI_TAIL_1A"; SN "RELATIVE_CLAUSES"];
   [SN "SUMTI_TAIL_1A"];
   [SN "QUANTIFIER"; SN "SUMTI"]]);
("SUMTI_TAIL_1A",
  [[SN "QUANTIFIER"; SN "SELBRI"];
   [SN "SELBRI"]]);
("RELATIVE_CLAUSES",
  [[SN "RELATIVE_CLAUSE_SEQ"]]);
("RELATIVE_CLAUSE_SEQ",
  [[SN "RELATIVE_CLAUSE"];
   [SN "RELATIVE_CLAUSE_SEQ"; ST T_ZIhE; SN "FREE_SEQ"; SN "RELATIVE_CLAUSE"];
   [SN "RELATIVE_CLAUSE_SEQ"; ST T_ZIhE; SN "RELATIVE_CLAUSE"]]);
("RELATIVE_CLAUSE",
  [[SN "TERM_RELATIVE_CLAUSE"];
   [SN "FULL_RELATIVE_CLAUSE"]]);
("TERM_RELATIVE_CLAUSE",
  [[ST T_GOI; SN "FREE_SEQ"; SN "TERM"; ST T_GEhU; SN "FREE_SEQ"];
   [ST T_GOI; SN "FREE_SEQ"; SN "TERM"; ST T_GEhU];
   [ST T_GOI; SN "FREE_SEQ"; SN "TERM"; SE T_GEhU];
   [ST T_GOI; SN "TERM"; ST T_GEhU; SN "FREE_SEQ"];
   [ST T_GOI; SN "TERM"; ST T_GEhU];
   [ST T_GOI; SN "TERM"; SE T_GEhU]]);
("FULL_RELATIVE_CLAUSE",
  [[ST T_NOI; SN "FREE_SEQ"; SN "SUBSENTENCE"; ST T_KUhO; SN "FREE_SEQ"];
   [ST T_NOI; SN "FREE_SEQ"; SN "SUBSENTENCE"; ST T_KUhO];
   [ST T_NOI; SN "FREE_SEQ"; SN "SUBSENTENCE"; SE T_KUhO];
   [ST T_NOI; SN "SUBSENTENCE"; ST T_KUhO; SN "FREE_SEQ"];
   [ST T_NOI; SN "SUBSENTENCE"; ST T_KUhO];
   [ST T_NOI; SN "SUBSENTENCE"; SE T_KUhO]]);
("SELBRI",
  [[SN "TAG"; SN "SELBRI_1"];
   [SN "SELBRI_1"]]);
("SELBRI_1",
  [[SN "SELBRI_2"];
   [ST T_NA; SN "FREE_SEQ"; SN "SELBRI"];
   [ST T_NA; SN "SELBRI"]]);
("SELBRI_2",
  [[SN "SELBRI_3"; ST T_CO; SN "FREE_SEQ"; SN "SELBRI_2"];
   [SN "SELBRI_3"; ST T_CO; SN "SELBRI_2"];
   [SN "SELBRI_3"]]);
("SELBRI_3",
  [[SN "SELBRI_3"; SN "SELBRI_4"];
   [SN "SELBRI_4"]]);
("SELBRI_4",
  [[SN "SELBRI_5"];
   [SN "SELBRI_4"; SN "JOIK_OPT_KE"; SN "FREE_SEQ"; SN "SELBRI_5"];
   [SN "SELBRI_4"; SN "JOIK_OPT_KE"; SN "SELBRI_5"];
   [SN "SELBRI_4"; SN "JEK_OPT_KE"; SN "FREE_SEQ"; SN "SELBRI_5"];
   [SN "SELBRI_4"; SN "JEK_OPT_KE"; SN "SELBRI_5"];
   [SN "SELBRI_4"; SN "JOIK_STAG_KE"; SN "KE_SELBRI_3"]]);
("JOIK_STAG_KE",
  [[SN "JOIK"; SN "STAG"]]);
("KE_SELBRI_3",
  [[ST T_KE; SN "FREE_SEQ"; SN "SELBRI_3"; ST T_KEhE; SN "FREE_SEQ"];
   [ST T_KE; SN "FREE_SEQ"; SN "SELBRI_3"; ST T_KEhE];
   [ST T_KE; SN "FREE_SEQ"; SN "SELBRI_3"; SE T_KEhE];
   [ST T_KE; SN "SELBRI_3"; ST T_KEhE; SN "FREE_SEQ"];
   [ST T_KE; SN "SELBRI_3"; ST T_KEhE];
   [ST T_KE; SN "SELBRI_3"; SE T_KEhE]]);
("SELBRI_5",
  [[SN "SELBRI_6"];
   [SN "SELBRI_6"; SN "JOIK_JEK_STAG_BO"; SN "SELBRI_5"]]);
("JOIK_JEK_STAG_BO",
  [[SN "JOIK"; SN "STAG"; ST T_BO; SN "FREE_SEQ"];
   [SN "JOIK"; SN "STAG"; ST T_BO];
   [SN "JOIK"; ST T_BO; SN "FREE_SEQ"];
   [SN "JOIK"; ST T_BO];
   [SN "JEK"; SN "STAG"; ST T_BO; SN "FREE_SEQ"];
   [SN "JEK"; SN "STAG"; ST T_BO];
   [SN "JEK"; ST T_BO; SN "FREE_SEQ"];
   [SN "JEK"; ST T_BO]]);
("SELBRI_6",
  [[SN "TANRU_UNIT"];
   [SN "TANRU_UNIT"; ST T_BO; SN "FREE_SEQ"; SN "SELBRI_6"];
   [SN "TANRU_UNIT"; ST T_BO; SN "SELBRI_6"];
   [ST T_NAhE; SN "FREE_SEQ"; SN "GUHEK"; SN "SELBRI"; SN "GIK"; SN "SELBRI_6"];
   [ST T_NAhE; SN "GUHEK"; SN "SELBRI"; SN "GIK"; SN "SELBRI_6"];
   [SN "GUHEK"; SN "SELBRI"; SN "GIK"; SN "SELBRI_6"]]);
("TANRU_UNIT",
  [[SN "TANRU_UNIT_1"];
   [SN "TANRU_UNIT"; ST T_CEI; SN "FREE_SEQ"; SN "TANRU_UNIT_1"];
   [SN "TANRU_UNIT"; ST T_CEI; SN "TANRU_UNIT_1"]]);
("TANRU_UNIT_1",
  [[SN "TANRU_UNIT_2"];
   [SN "TANRU_UNIT_2"; SN "LINKARGS"]]);
("TANRU_UNIT_2",
  [[ST T_BRIVLA; SN "FREE_SEQ"];
   [ST T_BRIVLA];
   [ST T_GOhA; ST T_RAhO; SN "FREE_SEQ"];
   [ST T_GOhA; ST T_RAhO];
   [ST T_GOhA; SN "FREE_SEQ"];
   [ST T_GOhA];
   [SN "KE_SELBRI3_TU2"];
   [ST T_ME; SN "FREE_SEQ"; SN "SUMTI"; ST T_MEhU; SN "FREE_SEQ"; ST T_MOI; SN "FREE_SEQ"];
   [ST T_ME; SN "FREE_SEQ"; SN "SUMTI"; ST T_MEhU; SN "FREE_SEQ"; ST T_MOI];
   [ST T_ME; SN "FREE_SEQ"; SN "SUMTI"; ST T_MEhU; SN "FREE_SEQ"];
   [ST T_ME; SN "FREE_SEQ"; SN "SUMTI"; ST T_MEhU; ST T_MOI; SN "FREE_SEQ"];
   [ST T_ME; SN "FREE_SEQ"; SN "SUMTI"; ST T_MEhU; ST T_MOI];
   [ST T_ME; SN "FREE_SEQ"; SN "SUMTI"; ST T_MEhU];
   [ST T_ME; SN "FREE_SEQ"; SN "SUMTI"; SE T_MEhU; ST T_MOI; SN "FREE_SEQ"];
   [ST T_ME; SN "FREE_SEQ"; SN "SUMTI"; SE T_MEhU; ST T_MOI];
   [ST T_ME; SN "FREE_SEQ"; SN "SUMTI"; SE T_MEhU];
   [ST T_ME; SN "SUMTI"; ST T_MEhU; SN "FREE_SEQ"; ST T_MOI; SN "FREE_SEQ"];
   [ST T_ME; SN "SUMTI"; ST T_MEhU; SN "FREE_SEQ"; ST T_MOI];
   [ST T_ME; SN "SUMTI"; ST T_MEhU; SN "FREE_SEQ"];
   [ST T_ME; SN "SUMTI"; ST T_MEhU; ST T_MOI; SN "FREE_SEQ"];
   [ST T_ME; SN "SUMTI"; ST T_MEhU; ST T_MOI];
   [ST T_ME; SN "SUMTI"; ST T_MEhU];
   [ST T_ME; SN "SUMTI"; SE T_MEhU; ST T_MOI; SN "FREE_SEQ"];
   [ST T_ME; SN "SUMTI"; SE T_MEhU; ST T_MOI];
   [ST T_ME; SN "SUMTI"; SE T_MEhU];
   [SN "NUMBER_MOI_TU2"];
   [ST T_NUhA; SN "FREE_SEQ"; SN "MEX_OPERATOR"];
   [ST T_NUhA; SN "MEX_OPERATOR"];
   [SN "SE_TU2"];
   [SN "JAI_TAG_TU2"];
   [SN "JAI_TU2"];
   [ST T_ZEI];
   [SN "NAHE_TU2"];
   [SN "ABSTRACTION"]]);
("KE_SELBRI3_TU2",
  [[ST T_KE; SN "FREE_SEQ"; SN "SELBRI_3"; ST T_KEhE; SN "FREE_SEQ"];
   [ST T_KE; SN "FREE_SEQ"; SN "SELBRI_3"; ST T_KEhE];
   [ST T_KE; SN "FREE_SEQ"; SN "SELBRI_3"; SE T_KEhE];
   [ST T_KE; SN "SELBRI_3"; ST T_KEhE; SN "FREE_SEQ"];
   [ST T_KE; SN "SELBRI_3"; ST T_KEhE];
   [ST T_KE; SN "SELBRI_3"; SE T_KEhE]]);
("NUMBER_MOI_TU2",
  [[SN "NUMBER"; ST T_MOI; SN "FREE_SEQ"];
   [SN "NUMBER"; ST T_MOI];
   [SN "LERFU_STRING"; ST T_MOI; SN "FREE_SEQ"];
   [SN "LERFU_STRING"; ST T_MOI]]);
("SE_TU2",
  [[ST T_SE; SN "FREE_SEQ"; SN "TANRU_UNIT_2"];
   [ST T_SE; SN "TANRU_UNIT_2"]]);
("JAI_TAG_TU2",
  [[ST T_JAI; SN "FREE_SEQ"; SN "TAG"; SN "TANRU_UNIT_2"];
   [ST T_JAI; SN "TAG"; SN "TANRU_UNIT_2"]]);
("JAI_TU2",
  [[ST T_JAI; SN "FREE_SEQ"; SN "TANRU_UNIT_2"];
   [ST T_JAI; SN "TANRU_UNIT_2"]]);
("NAHE_TU2",
  [[ST T_NAhE; SN "FREE_SEQ"; SN "TANRU_UNIT_2"];
   [ST T_NAhE; SN "TANRU_UNIT_2"]]);
("ABSTRACTION",
  [[SN "NU_NAI_SEQ"; SN "SUBSENTENCE"; ST T_KEI; SN "FREE_SEQ"];
   [SN "NU_NAI_SEQ"; SN "SUBSENTENCE"; ST T_KEI];
   [SN "NU_NAI_SEQ"; SN "SUBSENTENCE"; SE T_KEI]]);
("NU_NAI_SEQ",
  [[ST T_NU; ST T_NAI; SN "FREE_SEQ"];
   [ST T_NU; SN "FREE_SEQ"];
   [ST T_NU; ST T_NAI];
   [ST T_NU];
   [SN "NU_NAI_SEQ"; SN "JOIK"; SN "FREE_SEQ"; ST T_NU; ST T_NAI; SN "FREE_SEQ"];
   [SN "NU_NAI_SEQ"; SN "JOIK"; SN "FREE_SEQ"; ST T_NU; ST T_NAI];
   [SN "NU_NAI_SEQ"; SN "JOIK"; SN "FREE_SEQ"; ST T_NU; SN "FREE_SEQ"];
   [SN "NU_NAI_SEQ"; SN "JOIK"; SN "FREE_SEQ"; ST T_NU];
   [SN "NU_NAI_SEQ"; SN "JOIK"; ST T_NU; ST T_NAI; SN "FREE_SEQ"];
   [SN "NU_NAI_SEQ"; SN "JOIK"; ST T_NU; ST T_NAI];
   [SN "NU_NAI_SEQ"; SN "JOIK"; ST T_NU; SN "FREE_SEQ"];
   [SN "NU_NAI_SEQ"; SN "JOIK"; ST T_NU];
   [SN "NU_NAI_SEQ"; SN "JEK"; SN "FREE_SEQ"; ST T_NU; ST T_NAI; SN "FREE_SEQ"];
   [SN "NU_NAI_SEQ"; SN "JEK"; SN "FREE_SEQ"; ST T_NU; ST T_NAI];
   [SN "NU_NAI_SEQ"; SN "JEK"; SN "FREE_SEQ"; ST T_NU; SN "FREE_SEQ"];
   [SN "NU_NAI_SEQ"; SN "JEK"; SN "FREE_SEQ"; ST T_NU];
   [SN "NU_NAI_SEQ"; SN "JEK"; ST T_NU; ST T_NAI; SN "FREE_SEQ"];
   [SN "NU_NAI_SEQ"; SN "JEK"; ST T_NU; ST T_NAI];
   [SN "NU_NAI_SEQ"; SN "JEK"; ST T_NU; SN "FREE_SEQ"];
   [SN "NU_NAI_SEQ"; SN "JEK"; ST T_NU]]);
("LINKARGS",
  [[ST T_BE; SN "FREE_SEQ"; SN "TERM"; SN "LINKS"; ST T_BEhO; SN "FREE_SEQ"];
   [ST T_BE; SN "FREE_SEQ"; SN "TERM"; SN "LINKS"; ST T_BEhO];
   [ST T_BE; SN "FREE_SEQ"; SN "TERM"; SN "LINKS"; SE T_BEhO];
   [ST T_BE; SN "TERM"; SN "LINKS"; ST T_BEhO; SN "FREE_SEQ"];
   [ST T_BE; SN "TERM"; SN "LINKS"; ST T_BEhO];
   [ST T_BE; SN "TERM"; SN "LINKS"; SE T_BEhO];
   [ST T_BE; SN "FREE_SEQ"; SN "TERM"; ST T_BEhO; SN "FREE_SEQ"];
   [ST T_BE; SN "FREE_SEQ"; SN "TERM"; ST T_BEhO];
   [ST T_BE; SN "FREE_SEQ"; SN "TERM"; SE T_BEhO];
   [ST T_BE; SN "TERM"; ST T_BEhO; SN "FREE_SEQ"];
   [ST T_BE; SN "TERM"; ST T_BEhO];
   [ST T_BE; SN "TERM"; SE T_BEhO]]);
("LINKS",
  [[ST T_BEI; SN "FREE_SEQ"; SN "TERM"; SN "LINKS"];
   [ST T_BEI; SN "TERM"; SN "LINKS"];
   [ST T_BEI; SN "FREE_SEQ"; SN "TERM"];
   [ST T_BEI; SN "TERM"]]);
("QUANTIFIER",
  [[SN "NUMBER"; ST T_BOI; SN "FREE_SEQ"];
   [SN "NUMBER"; ST T_BOI];
   [SN "NUMBER"; SE T_BOI];
   [ST T_VEI; SN "FREE_SEQ"; SN "MEX"; ST T_VEhO; SN "FREE_SEQ"];
   [ST T_VEI; SN "FREE_SEQ"; SN "MEX"; ST T_VEhO];
   [ST T_VEI; SN "FREE_SEQ"; SN "MEX"; SE T_VEhO];
   [ST T_VEI; SN "MEX"; ST T_VEhO; SN "FREE_SEQ"];
   [ST T_VEI; SN "MEX"; ST T_VEhO];
   [ST T_VEI; SN "MEX"; SE T_VEhO]]);
("MEX",
  [[SN "MEX_INFIX"];
   [SN "MEX_RP"]]);
("MEX_RP",
  [[ST T_FUhA; SN "FREE_SEQ"; SN "RP_EXPRESSION"];
   [ST T_FUhA; SN "RP_EXPRESSION"]]);
("MEX_INFIX",
  [[SN "MEX_1"];
   [SN "MEX_INFIX"; SN "OPERATOR"; SN "MEX_1"]]);
("MEX_1",
  [[SN "MEX_2"];
   [SN "MEX_2"; ST T_BIhE; SN "FREE_SEQ"; SN "OPERATOR"; SN "MEX_1"];
   [SN "MEX_2"; ST T_BIhE; SN "OPERATOR"; SN "MEX_1"]]);
("MEX_2",
  [[SN "OPERAND"];
   [ST T_PEhO; SN "FREE_SEQ"; SN "OPERATOR"; SN "MEX_2_SEQ"; ST T_KUhE; SN "FREE_SEQ"];
   [ST T_PEhO; SN "FREE_SEQ"; SN "OPERATOR"; SN "MEX_2_SEQ"; ST T_KUhE];
   [ST T_PEhO; SN "FREE_SEQ"; SN "OPERATOR"; SN "MEX_2_SEQ"; SE T_KUhE];
   [ST T_PEhO; SN "OPERATOR"; SN "MEX_2_SEQ"; ST T_KUhE; SN "FREE_SEQ"];
   [ST T_PEhO; SN "OPERATOR"; SN "MEX_2_SEQ"; ST T_KUhE];
   [ST T_PEhO; SN "OPERATOR"; SN "MEX_2_SEQ"; SE T_KUhE];
   [SN "OPERATOR"; SN "MEX_2_SEQ"; ST T_KUhE; SN "FREE_SEQ"];
   [SN "OPERATOR"; SN "MEX_2_SEQ"; ST T_KUhE];
   [SN "OPERATOR"; SN "MEX_2_SEQ"; SE T_KUhE]]);
("MEX_2_SEQ",
  [[SN "MEX_2"];
   [SN "MEX_2_SEQ"; SN "MEX_2"]]);
("RP_EXPRESSION",
  [[SN "RP_EXPRESSION"; SN "RP_EXPRESSION"; SN "OPERATOR"];
   [SN "OPERAND"; SN "RP_EXPRESSION"; SN "OPERATOR"];
   [SN "RP_EXPRESSION"; SN "OPERAND"; SN "OPERATOR"];
   [SN "OPERAND"; SN "OPERAND"; SN "OPERATOR"]]);
("OPERATOR",
  [[SN "OPERATOR_1"];
   [SN "OPERATOR"; SN "JOIK_OPT_KE"; SN "FREE_SEQ"; SN "OPERATOR_1"];
   [SN "OPERATOR"; SN "JOIK_OPT_KE"; SN "OPERATOR_1"];
   [SN "OPERATOR"; SN "JEK_OPT_KE"; SN "FREE_SEQ"; SN "OPERATOR_1"];
   [SN "OPERATOR"; SN "JEK_OPT_KE"; SN "OPERATOR_1"];
   [SN "OPERATOR"; SN "JOIK_STAG_KE"; SN "KE_OPERATOR"]]);
("KE_OPERATOR",
  [[ST T_KE; SN "FREE_SEQ"; SN "OPERATOR"; ST T_KEhE; SN "FREE_SEQ"];
   [ST T_KE; SN "FREE_SEQ"; SN "OPERATOR"; ST T_KEhE];
   [ST T_KE; SN "FREE_SEQ"; SN "OPERATOR"; SE T_KEhE];
   [ST T_KE; SN "OPERATOR"; ST T_KEhE; SN "FREE_SEQ"];
   [ST T_KE; SN "OPERATOR"; ST T_KEhE];
   [ST T_KE; SN "OPERATOR"; SE T_KEhE]]);
("OPERATOR_1",
  [[SN "OPERATOR_2"];
   [SN "GUHEK"; SN "OPERATOR_1"; SN "GIK"; SN "OPERATOR_2"];
   [SN "OPERATOR_2"; SN "JOIK_JEK_STAG_BO"; SN "OPERATOR_1"]]);
("OPERATOR_2",
  [[SN "MEX_OPERATOR"];
   [ST T_KE; SN "FREE_SEQ"; SN "OPERATOR"; ST T_KEhE; SN "FREE_SEQ"];
   [ST T_KE; SN "FREE_SEQ"; SN "OPERATOR"; ST T_KEhE];
   [ST T_KE; SN "FREE_SEQ"; SN "OPERATOR"; SE T_KEhE];
   [ST T_KE; SN "OPERATOR"; ST T_KEhE; SN "FREE_SEQ"];
   [ST T_KE; SN "OPERATOR"; ST T_KEhE];
   [ST T_KE; SN "OPERATOR"; SE T_KEhE]]);
("MEX_OPERATOR",
  [[ST T_SE; SN "FREE_SEQ"; SN "MEX_OPERATOR"];
   [ST T_SE; SN "MEX_OPERATOR"];
   [ST T_NAhE; SN "FREE_SEQ"; SN "MEX_OPERATOR"];
   [ST T_NAhE; SN "MEX_OPERATOR"];
   [ST T_MAhO; SN "FREE_SEQ"; SN "MEX"; ST T_TEhU; SN "FREE_SEQ"];
   [ST T_MAhO; SN "FREE_SEQ"; SN "MEX"; ST T_TEhU];
   [ST T_MAhO; SN "FREE_SEQ"; SN "MEX"; SE T_TEhU];
   [ST T_MAhO; SN "MEX"; ST T_TEhU; SN "FREE_SEQ"];
   [ST T_MAhO; SN "MEX"; ST T_TEhU];
   [ST T_MAhO; SN "MEX"; SE T_TEhU];
   [ST T_NAhU; SN "FREE_SEQ"; SN "SELBRI"; ST T_TEhU; SN "FREE_SEQ"];
   [ST T_NAhU; SN "FREE_SEQ"; SN "SELBRI"; ST T_TEhU];
   [ST T_NAhU; SN "FREE_SEQ"; SN "SELBRI"; SE T_TEhU];
   [ST T_NAhU; SN "SELBRI"; ST T_TEhU; SN "FREE_SEQ"];
   [ST T_NAhU; SN "SELBRI"; ST T_TEhU];
   [ST T_NAhU; SN "SELBRI"; SE T_TEhU];
   [ST T_VUhU; SN "FREE_SEQ"];
   [ST T_VUhU]]);
("OPERAND",
  [[SN "OPERAND_1"];
   [SN "OPERAND_1"; SN "JOIK_EK_KE"; SN "KE_OPERAND"]]);
("KE_OPERAND",
  [[ST T_KE; SN "FREE_SEQ"; SN "OPERAND"; ST T_KEhE; SN "FREE_SEQ"];
   [ST T_KE; SN "FREE_SEQ"; SN "OPERAND"; ST T_KEhE];
   [ST T_KE; SN "FREE_SEQ"; SN "OPERAND"; SE T_KEhE];
   [ST T_KE; SN "OPERAND"; ST T_KEhE; SN "FREE_SEQ"];
   [ST T_KE; SN "OPERAND"; ST T_KEhE];
   [ST T_KE; SN "OPERAND"; SE T_KEhE]]);
("OPERAND_1",
  [[SN "OPERAND_2"];
   [SN "OPERAND_1"; SN "JOIK"; SN "FREE_SEQ"; SN "OPERAND_2"];
   [SN "OPERAND_1"; SN "JOIK"; SN "OPERAND_2"];
   [SN "OPERAND_1"; SN "JEK"; SN "FREE_SEQ"; SN "OPERAND_2"];
   [SN "OPERAND_1"; SN "JEK"; SN "OPERAND_2"]]);
("OPERAND_2",
  [[SN "OPERAND_3"];
   [SN "OPERAND_3"; SN "JOIK_EK_STAG_BO"; SN "OPERAND_2"]]);
("OPERAND_3",
  [[SN "QUANTIFIER"];
   [SN "LERFU_STRING"; ST T_BOI; SN "FREE_SEQ"];
   [SN "LERFU_STRING"; ST T_BOI];
   [SN "LERFU_STRING"; SE T_BOI];
   [ST T_NIhE; SN "FREE_SEQ"; SN "SELBRI"; ST T_TEhU; SN "FREE_SEQ"];
   [ST T_NIhE; SN "FREE_SEQ"; SN "SELBRI"; ST T_TEhU];
   [ST T_NIhE; SN "FREE_SEQ"; SN "SELBRI"; SE T_TEhU];
   [ST T_NIhE; SN "SELBRI"; ST T_TEhU; SN "FREE_SEQ"];
   [ST T_NIhE; SN "SELBRI"; ST T_TEhU];
   [ST T_NIhE; SN "SELBRI"; SE T_TEhU];
   [ST T_MOhE; SN "FREE_SEQ"; SN "SUMTI"; ST T_TEhU; SN "FREE_SEQ"];
   [ST T_MOhE; SN "FREE_SEQ"; SN "SUMTI"; ST T_TEhU];
   [ST T_MOhE; SN "FREE_SEQ"; SN "SUMTI"; SE T_TEhU];
   [ST T_MOhE; SN "SUMTI"; ST T_TEhU; SN "FREE_SEQ"];
   [ST T_MOhE; SN "SUMTI"; ST T_TEhU];
   [ST T_MOhE; SN "SUMTI"; SE T_TEhU];
   [ST T_JOhI; SN "FREE_SEQ"; SN "MEX_2_SEQ"; ST T_TEhU; SN "FREE_SEQ"];
   [ST T_JOhI; SN "FREE_SEQ"; SN "MEX_2_SEQ"; ST T_TEhU];
   [ST T_JOhI; SN "FREE_SEQ"; SN "MEX_2_SEQ"; SE T_TEhU];
   [ST T_JOhI; SN "MEX_2_SEQ"; ST T_TEhU; SN "FREE_SEQ"];
   [ST T_JOhI; SN "MEX_2_SEQ"; ST T_TEhU];
   [ST T_JOhI; SN "MEX_2_SEQ"; SE T_TEhU];
   [SN "GEK"; SN "OPERAND"; SN "GIK"; SN "OPERAND_3"];
   [ST T_LAhE; SN "FREE_SEQ"; SN "OPERAND"; ST T_LUhU; SN "FREE_SEQ"];
   [ST T_LAhE; SN "FREE_SEQ"; SN "OPERAND"; ST T_LUhU];
   [ST T_LAhE; SN "FREE_SEQ"; SN "OPERAND"; SE T_LUhU];
   [ST T_LAhE; SN "OPERAND"; ST T_LUhU; SN "FREE_SEQ"];
   [ST T_LAhE; SN "OPERAND"; ST T_LUhU];
   [ST T_LAhE; SN "OPERAND"; SE T_LUhU];
   [ST T_NAhE; ST T_BO; SN "FREE_SEQ"; SN "OPERAND"; ST T_LUhU; SN "FREE_SEQ"];
   [ST T_NAhE; ST T_BO; SN "FREE_SEQ"; SN "OPERAND"; ST T_LUhU];
   [ST T_NAhE; ST T_BO; SN "FREE_SEQ"; SN "OPERAND"; SE T_LUhU];
   [ST T_NAhE; ST T_BO; SN "OPERAND"; ST T_LUhU; SN "FREE_SEQ"];
   [ST T_NAhE; ST T_BO; SN "OPERAND"; ST T_LUhU];
   [ST T_NAhE; ST T_BO; SN "OPERAND"; SE T_LUhU]]);
("NUMBER",
  [[SN "INNER_NUMBER"]]);
("INNER_NUMBER",
  [[ST T_PA];
   [SN "INNER_NUMBER"; ST T_PA];
   [SN "INNER_NUMBER"; SN "LERFU_WORD"]]);
("LERFU_STRING",
  [[SN "LERFU_WORD"];
   [SN "LERFU_STRING"; ST T_PA];
   [SN "LERFU_STRING"; SN "LERFU_WORD"]]);
("LERFU_WORD",
  [[ST T_BY];
   [ST T_BU];
   [ST T_LAU; SN "LERFU_WORD"];
   [ST T_TEI; SN "LERFU_STRING"; ST T_FOI]]);
("EK",
  [[ST T_NA; ST T_SE; ST T_A; ST T_NAI];
   [ST T_NA; ST T_SE; ST T_A];
   [ST T_NA; ST T_A; ST T_NAI];
   [ST T_NA; ST T_A];
   [ST T_SE; ST T_A; ST T_NAI];
   [ST T_SE; ST T_A];
   [ST T_A; ST T_NAI];
   [ST T_A]]);
("GIHEK",
  [[ST T_NA; ST T_SE; ST T_GIhA; ST T_NAI];
   [ST T_NA; ST T_SE; ST T_GIhA];
   [ST T_NA; ST T_GIhA; ST T_NAI];
   [ST T_NA; ST T_GIhA];
   [ST T_SE; ST T_GIhA; ST T_NAI];
   [ST T_SE; ST T_GIhA];
   [ST T_GIhA; ST T_NAI];
   [ST T_GIhA]]);
("JEK",
  [[ST T_NA; ST T_SE; ST T_JA; ST T_NAI];
   [ST T_NA; ST T_SE; ST T_JA];
   [ST T_NA; ST T_JA; ST T_NAI];
   [ST T_NA; ST T_JA];
   [ST T_SE; ST T_JA; ST T_NAI];
   [ST T_SE; ST T_JA];
   [ST T_JA; ST T_NAI];
   [ST T_JA]]);
("JEK_OPT_KE",
  [[ST T_NA; ST T_SE; ST T_JA; ST T_NAI];
   [ST T_NA; ST T_SE; ST T_JA];
   [ST T_NA; ST T_JA; ST T_NAI];
   [ST T_NA; ST T_JA];
   [ST T_SE; ST T_JA; ST T_NAI];
   [ST T_SE; ST T_JA];
   [ST T_JA; ST T_NAI];
   [ST T_JA]]);
("JEK_OPT_KEBO",
  [[ST T_NA; ST T_SE; ST T_JA; ST T_NAI];
   [ST T_NA; ST T_SE; ST T_JA];
   [ST T_NA; ST T_JA; ST T_NAI];
   [ST T_NA; ST T_JA];
   [ST T_SE; ST T_JA; ST T_NAI];
   [ST T_SE; ST T_JA];
   [ST T_JA; ST T_NAI];
   [ST T_JA]]);
("JOIK",
  [[ST T_SE; ST T_JOI; ST T_NAI];
   [ST T_SE; ST T_JOI];
   [ST T_JOI; ST T_NAI];
   [ST T_JOI];
   [ST T_SE; ST T_BIhI; ST T_NAI];
   [ST T_SE; ST T_BIhI];
   [ST T_BIhI; ST T_NAI];
   [ST T_BIhI];
   [ST T_GAhO; ST T_SE; ST T_BIhI; ST T_NAI; ST T_GAhO];
   [ST T_GAhO; ST T_SE; ST T_BIhI; ST T_GAhO];
   [ST T_GAhO; ST T_BIhI; ST T_NAI; ST T_GAhO];
   [ST T_GAhO; ST T_BIhI; ST T_GAhO]]);
("JOIK_OPT_KE",
  [[ST T_SE; ST T_JOI; ST T_NAI];
   [ST T_SE; ST T_JOI];
   [ST T_JOI; ST T_NAI];
   [ST T_JOI];
   [ST T_SE; ST T_BIhI; ST T_NAI];
   [ST T_SE; ST T_BIhI];
   [ST T_BIhI; ST T_NAI];
   [ST T_BIhI];
   [ST T_GAhO; ST T_SE; ST T_BIhI; ST T_NAI; ST T_GAhO];
   [ST T_GAhO; ST T_SE; ST T_BIhI; ST T_GAhO];
   [ST T_GAhO; ST T_BIhI; ST T_NAI; ST T_GAhO];
   [ST T_GAhO; ST T_BIhI; ST T_GAhO]]);
("JOIK_OPT_KEBO",
  [[ST T_SE; ST T_JOI; ST T_NAI];
   [ST T_SE; ST T_JOI];
   [ST T_JOI; ST T_NAI];
   [ST T_JOI];
   [ST T_SE; ST T_BIhI; ST T_NAI];
   [ST T_SE; ST T_BIhI];
   [ST T_BIhI; ST T_NAI];
   [ST T_BIhI];
   [ST T_GAhO; ST T_SE; ST T_BIhI; ST T_NAI; ST T_GAhO];
   [ST T_GAhO; ST T_SE; ST T_BIhI; ST T_GAhO];
   [ST T_GAhO; ST T_BIhI; ST T_NAI; ST T_GAhO];
   [ST T_GAhO; ST T_BIhI; ST T_GAhO]]);
("GEK",
  [[ST T_SE; ST T_GA; ST T_NAI; SN "FREE_SEQ"];
   [ST T_SE; ST T_GA; ST T_NAI];
   [ST T_SE; ST T_GA; SN "FREE_SEQ"];
   [ST T_SE; ST T_GA];
   [ST T_GA; ST T_NAI; SN "FREE_SEQ"];
   [ST T_GA; ST T_NAI];
   [ST T_GA; SN "FREE_SEQ"];
   [ST T_GA];
   [SN "JOIK"; ST T_GI; SN "FREE_SEQ"];
   [SN "JOIK"; ST T_GI];
   [SN "STAG"; SN "GIK"]]);
("GUHEK",
  [[ST T_SE; ST T_GUhA; ST T_NAI; SN "FREE_SEQ"];
   [ST T_SE; ST T_GUhA; ST T_NAI];
   [ST T_SE; ST T_GUhA; SN "FREE_SEQ"];
   [ST T_SE; ST T_GUhA];
   [ST T_GUhA; ST T_NAI; SN "FREE_SEQ"];
   [ST T_GUhA; ST T_NAI];
   [ST T_GUhA; SN "FREE_SEQ"];
   [ST T_GUhA]]);
("GIK",
  [[ST T_GI; ST T_NAI; SN "FREE_SEQ"];
   [ST T_GI; ST T_NAI];
   [ST T_GI; SN "FREE_SEQ"];
   [ST T_GI]]);
("TAG",
  [[SN "CTAG"];
   [SN "STAG"]]);
("CTAG",
  [[SN "COMPLEX_TENSE_MODAL"];
   [SN "CTAG"; SN "JOIK_OPT_KEBO"; SN "FREE_SEQ"; SN "COMPLEX_TENSE_MODAL"];
   [SN "CTAG"; SN "JOIK_OPT_KEBO"; SN "COMPLEX_TENSE_MODAL"];
   [SN "CTAG"; SN "JEK_OPT_KEBO"; SN "FREE_SEQ"; SN "COMPLEX_TENSE_MODAL"];
   [SN "CTAG"; SN "JEK_OPT_KEBO"; SN "COMPLEX_TENSE_MODAL"];
   [SN "CTAG"; SN "JOIK_OPT_KEBO"; SN "FREE_SEQ"; SN "SIMPLE_TENSE_MODAL"];
   [SN "CTAG"; SN "JOIK_OPT_KEBO"; SN "SIMPLE_TENSE_MODAL"];
   [SN "CTAG"; SN "JEK_OPT_KEBO"; SN "FREE_SEQ"; SN "SIMPLE_TENSE_MODAL"];
   [SN "CTAG"; SN "JEK_OPT_KEBO"; SN "SIMPLE_TENSE_MODAL"];
   [SN "STAG"; SN "JOIK_OPT_KEBO"; SN "FREE_SEQ"; SN "COMPLEX_TENSE_MODAL"];
   [SN "STAG"; SN "JOIK_OPT_KEBO"; SN "COMPLEX_TENSE_MODAL"];
   [SN "STAG"; SN "JEK_OPT_KEBO"; SN "FREE_SEQ"; SN "COMPLEX_TENSE_MODAL"];
   [SN "STAG"; SN "JEK_OPT_KEBO"; SN "COMPLEX_TENSE_MODAL"]]);
("COMPLEX_TENSE_MODAL",
  [[ST T_FIhO; SN "FREE_SEQ"; SN "SELBRI"; ST T_FEhU; SN "FREE_SEQ"];
   [ST T_FIhO; SN "FREE_SEQ"; SN "SELBRI"; ST T_FEhU];
   [ST T_FIhO; SN "FREE_SEQ"; SN "SELBRI"; SE T_FEhU];
   [ST T_FIhO; SN "SELBRI"; ST T_FEhU; SN "FREE_SEQ"];
   [ST T_FIhO; SN "SELBRI"; ST T_FEhU];
   [ST T_FIhO; SN "SELBRI"; SE T_FEhU];
   [SN "SIMPLE_TENSE_MODAL"; SN "FREE_SEQ"]]);
("STAG",
  [[SN "SIMPLE_TENSE_MODAL"];
   [SN "STAG"; SN "JEK_OPT_KEBO"; SN "SIMPLE_TENSE_MODAL"];
   [SN "STAG"; SN "JOIK_OPT_KEBO"; SN "SIMPLE_TENSE_MODAL"]]);
("SIMPLE_TENSE_MODAL",
  [[ST T_NAhE; SN "SE_BAI"; ST T_NAI; ST T_KI];
   [ST T_NAhE; SN "SE_BAI"; ST T_NAI];
   [ST T_NAhE; SN "SE_BAI"; ST T_KI];
   [ST T_NAhE; SN "SE_BAI"];
   [ST T_NAhE; SN "BAI1"; ST T_NAI; ST T_KI];
   [ST T_NAhE; SN "BAI1"; ST T_NAI];
   [ST T_NAhE; SN "BAI1"; ST T_KI];
   [ST T_NAhE; SN "BAI1"];
   [SN "SE_BAI"; ST T_NAI; ST T_KI];
   [SN "SE_BAI"; ST T_NAI];
   [SN "SE_BAI"; ST T_KI];
   [SN "SE_BAI"];
   [SN "BAI1"; ST T_NAI; ST T_KI];
   [SN "BAI1"; ST T_NAI];
   [SN "BAI1"; ST T_KI];
   [SN "BAI1"];
   [ST T_NAhE; SN "TIME"; SN "SPACE"; ST T_CAhA; ST T_KI];
   [ST T_NAhE; SN "TIME"; SN "SPACE"; ST T_CAhA];
   [ST T_NAhE; SN "TIME"; SN "SPACE"; ST T_KI];
   [ST T_NAhE; SN "TIME"; SN "SPACE"];
   [ST T_NAhE; SN "TIME"; ST T_CAhA; ST T_KI];
   [ST T_NAhE; SN "TIME"; ST T_CAhA];
   [ST T_NAhE; SN "TIME"; ST T_KI];
   [ST T_NAhE; SN "TIME"];
   [SN "TIME"; SN "SPACE"; ST T_CAhA; ST T_KI];
   [SN "TIME"; SN "SPACE"; ST T_CAhA];
   [SN "TIME"; SN "SPACE"; ST T_KI];
   [SN "TIME"; SN "SPACE"];
   [SN "TIME"; ST T_CAhA; ST T_KI];
   [SN "TIME"; ST T_CAhA];
   [SN "TIME"; ST T_KI];
   [SN "TIME"];
   [ST T_NAhE; SN "SPACE"; SN "TIME"; ST T_CAhA; ST T_KI];
   [ST T_NAhE; SN "SPACE"; SN "TIME"; ST T_CAhA];
   [ST T_NAhE; SN "SPACE"; SN "TIME"; ST T_KI];
   [ST T_NAhE; SN "SPACE"; SN "TIME"];
   [ST T_NAhE; SN "SPACE"; ST T_CAhA; ST T_KI];
   [ST T_NAhE; SN "SPACE"; ST T_CAhA];
   [ST T_NAhE; SN "SPACE"; ST T_KI];
   [ST T_NAhE; SN "SPACE"];
   [SN "SPACE"; SN "TIME"; ST T_CAhA; ST T_KI];
   [SN "SPACE"; SN "TIME"; ST T_CAhA];
   [SN "SPACE"; SN "TIME"; ST T_KI];
   [SN "SPACE"; SN "TIME"];
   [SN "SPACE"; ST T_CAhA; ST T_KI];
   [SN "SPACE"; ST T_CAhA];
   [SN "SPACE"; ST T_KI];
   [SN "SPACE"];
   [ST T_CAhA; ST T_KI];
   [ST T_CAhA];
   [ST T_NAhE; ST T_CAhA; ST T_KI];
   [ST T_NAhE; ST T_CAhA];
   [ST T_KI];
   [ST T_CUhE]]);
("SE_BAI",
  [[ST T_SE; ST T_BAI]]);
("BAI1",
  [[ST T_BAI]]);
("TIME",
  [[ST T_ZI; SN "TIME_OFFSET_SEQ"; SN "ZEHA_PU_NAI"; SN "INTERVAL_PROPERTY_SEQ"];
   [ST T_ZI; SN "TIME_OFFSET_SEQ"; SN "INTERVAL_PROPERTY_SEQ"];
   [ST T_ZI; SN "TIME_OFFSET_SEQ"; SN "ZEHA_PU_NAI"];
   [ST T_ZI; SN "TIME_OFFSET_SEQ"];
   [ST T_ZI; SN "ZEHA_PU_NAI"; SN "INTERVAL_PROPERTY_SEQ"];
   [ST T_ZI; SN "INTERVAL_PROPERTY_SEQ"];
   [ST T_ZI; SN "ZEHA_PU_NAI"];
   [ST T_ZI];
   [SN "TIME_OFFSET_SEQ"; SN "ZEHA_PU_NAI"; SN "INTERVAL_PROPERTY_SEQ"];
   [SN "TIME_OFFSET_SEQ"; SN "INTERVAL_PROPERTY_SEQ"];
   [SN "TIME_OFFSET_SEQ"; SN "ZEHA_PU_NAI"];
   [SN "TIME_OFFSET_SEQ"];
   [SN "ZEHA_PU_NAI"; SN "INTERVAL_PROPERTY_SEQ"];
   [SN "INTERVAL_PROPERTY_SEQ"];
   [SN "ZEHA_PU_NAI"]]);
("ZEHA_PU_NAI",
  [[ST T_ZEhA; ST T_PU; ST T_NAI];
   [ST T_ZEhA; ST T_PU];
   [ST T_ZEhA]]);
("TIME_OFFSET",
  [[ST T_PU; ST T_NAI; ST T_ZI];
   [ST T_PU; ST T_NAI];
   [ST T_PU; ST T_ZI];
   [ST T_PU]]);
("TIME_OFFSET_SEQ",
  [[SN "TIME_OFFSET_SEQ"; SN "TIME_OFFSET"];
   [SN "TIME_OFFSET"]]);
("SPACE",
  [[ST T_VA; SN "SPACE_OFFSET_SEQ"; SN "SPACE_INTERVAL"; ST T_MOhI; SN "SPACE_OFFSET"];
   [ST T_VA; SN "SPACE_OFFSET_SEQ"; SN "SPACE_INTERVAL"];
   [ST T_VA; SN "SPACE_OFFSET_SEQ"; ST T_MOhI; SN "SPACE_OFFSET"];
   [ST T_VA; SN "SPACE_OFFSET_SEQ"];
   [ST T_VA; SN "SPACE_INTERVAL"; ST T_MOhI; SN "SPACE_OFFSET"];
   [ST T_VA; SN "SPACE_INTERVAL"];
   [ST T_VA; ST T_MOhI; SN "SPACE_OFFSET"];
   [ST T_VA];
   [SN "SPACE_OFFSET_SEQ"; SN "SPACE_INTERVAL"; ST T_MOhI; SN "SPACE_OFFSET"];
   [SN "SPACE_OFFSET_SEQ"; SN "SPACE_INTERVAL"];
   [SN "SPACE_OFFSET_SEQ"; ST T_MOhI; SN "SPACE_OFFSET"];
   [SN "SPACE_OFFSET_SEQ"];
   [SN "SPACE_INTERVAL"; ST T_MOhI; SN "SPACE_OFFSET"];
   [SN "SPACE_INTERVAL"];
   [ST T_MOhI; SN "SPACE_OFFSET"]]);
("SPACE_OFFSET",
  [[ST T_FAhA; ST T_NAI; ST T_VA];
   [ST T_FAhA; ST T_NAI];
   [ST T_FAhA; ST T_VA];
   [ST T_FAhA]]);
("SPACE_OFFSET_SEQ",
  [[SN "SPACE_OFFSET_SEQ"; SN "SPACE_OFFSET"];
   [SN "SPACE_OFFSET"]]);
("SPACE_INTERVAL",
  [[ST T_VEhA; ST T_VIhA; ST T_FAhA; ST T_NAI; SN "SPACE_INT_PROPS"];
   [ST T_VEhA; ST T_VIhA; ST T_FAhA; SN "SPACE_INT_PROPS"];
   [ST T_VEhA; ST T_VIhA; SN "SPACE_INT_PROPS"];
   [ST T_VEhA; ST T_FAhA; ST T_NAI; SN "SPACE_INT_PROPS"];
   [ST T_VEhA; ST T_FAhA; SN "SPACE_INT_PROPS"];
   [ST T_VEhA; SN "SPACE_INT_PROPS"];
   [ST T_VIhA; ST T_FAhA; ST T_NAI; SN "SPACE_INT_PROPS"];
   [ST T_VIhA; ST T_FAhA; SN "SPACE_INT_PROPS"];
   [ST T_VIhA; SN "SPACE_INT_PROPS"];
   [ST T_VEhA; ST T_VIhA; ST T_FAhA; ST T_NAI];
   [ST T_VEhA; ST T_VIhA; ST T_FAhA];
   [ST T_VEhA; ST T_VIhA];
   [ST T_VEhA; ST T_FAhA; ST T_NAI];
   [ST T_VEhA; ST T_FAhA];
   [ST T_VEhA];
   [ST T_VIhA; ST T_FAhA; ST T_NAI];
   [ST T_VIhA; ST T_FAhA];
   [ST T_VIhA];
   [SN "SPACE_INT_PROPS"]]);
("SPACE_INT_PROPS",
  [[SN "SPACE_INT_PROPS"; SN "SPACE_INT_PROP"];
   [SN "SPACE_INT_PROP"]]);
("SPACE_INT_PROP",
  [[ST T_FEhE; SN "INTERVAL_PROPERTY"]]);
("INTERVAL_PROPERTY",
  [[SN "NUMBER"; ST T_ROI; ST T_NAI];
   [SN "NUMBER"; ST T_ROI];
   [ST T_TAhE; ST T_NAI];
   [ST T_TAhE];
   [ST T_ZAhO; ST T_NAI];
   [ST T_ZAhO]]);
("INTERVAL_PROPERTY_SEQ",
  [[SN "INTERVAL_PROPERTY_SEQ"; SN "INTERVAL_PROPERTY"];
   [SN "INTERVAL_PROPERTY"]]);
("FREE_SEQ",
  [[SN "FREE_SEQ"; SN "FREE"];
   [SN "FREE"]]);
("FREE",
  [[SN "METALINGUISTIC"];
   [SN "RECIPROCITY"];
   [SN "FREE_VOCATIVE"];
   [SN "UTTERANCE_ORDINAL"];
   [SN "PARENTHETICAL"];
   [SN "SUBSCRIPT"]]);
("METALINGUISTIC",
  [[ST T_SEI; SN "FREE_SEQ"; SN "TERMS"; ST T_CU; SN "FREE_SEQ"; SN "METALINGUISTIC_MAIN_SELBRI"; ST T_SEhU];
   [ST T_SEI; SN "FREE_SEQ"; SN "TERMS"; ST T_CU; SN "FREE_SEQ"; SN "METALINGUISTIC_MAIN_SELBRI"; SE T_SEhU];
   [ST T_SEI; SN "FREE_SEQ"; SN "TERMS"; ST T_CU; SN "METALINGUISTIC_MAIN_SELBRI"; ST T_SEhU];
   [ST T_SEI; SN "FREE_SEQ"; SN "TERMS"; ST T_CU; SN "METALINGUISTIC_MAIN_SELBRI"; SE T_SEhU];
   [ST T_SEI; SN "FREE_SEQ"; SN "TERMS"; SN "METALINGUISTIC_MAIN_SELBRI"; ST T_SEhU];
   [ST T_SEI; SN "FREE_SEQ"; SN "TERMS"; SN "METALINGUISTIC_MAIN_SELBRI"; SE T_SEhU];
   [ST T_SEI; SN "FREE_SEQ"; SN "METALINGUISTIC_MAIN_SELBRI"; ST T_SEhU];
   [ST T_SEI; SN "FREE_SEQ"; SN "METALINGUISTIC_MAIN_SELBRI"; SE T_SEhU];
   [ST T_SEI; SN "TERMS"; ST T_CU; SN "FREE_SEQ"; SN "METALINGUISTIC_MAIN_SELBRI"; ST T_SEhU];
   [ST T_SEI; SN "TERMS"; ST T_CU; SN "FREE_SEQ"; SN "METALINGUISTIC_MAIN_SELBRI"; SE T_SEhU];
   [ST T_SEI; SN "TERMS"; ST T_CU; SN "METALINGUISTIC_MAIN_SELBRI"; ST T_SEhU];
   [ST T_SEI; SN "TERMS"; ST T_CU; SN "METALINGUISTIC_MAIN_SELBRI"; SE T_SEhU];
   [ST T_SEI; SN "TERMS"; SN "METALINGUISTIC_MAIN_SELBRI"; ST T_SEhU];
   [ST T_SEI; SN "TERMS"; SN "METALINGUISTIC_MAIN_SELBRI"; SE T_SEhU];
   [ST T_SEI; SN "METALINGUISTIC_MAIN_SELBRI"; ST T_SEhU];
   [ST T_SEI; SN "METALINGUISTIC_MAIN_SELBRI"; SE T_SEhU]]);
("METALINGUISTIC_MAIN_SELBRI",
  [[SN "SELBRI"]]);
("RECIPROCITY",
  [[ST T_SOI; SN "FREE_SEQ"; SN "SUMTI"; SN "SUMTI"; ST T_SEhU];
   [ST T_SOI; SN "FREE_SEQ"; SN "SUMTI"; SN "SUMTI"; SE T_SEhU];
   [ST T_SOI; SN "FREE_SEQ"; SN "SUMTI"; ST T_SEhU];
   [ST T_SOI; SN "FREE_SEQ"; SN "SUMTI"; SE T_SEhU];
   [ST T_SOI; SN "SUMTI"; SN "SUMTI"; ST T_SEhU];
   [ST T_SOI; SN "SUMTI"; SN "SUMTI"; SE T_SEhU];
   [ST T_SOI; SN "SUMTI"; ST T_SEhU];
   [ST T_SOI; SN "SUMTI"; SE T_SEhU]]);
("FREE_VOCATIVE",
  [[SN "VOCATIVE"; SN "RELATIVE_CLAUSES"; SN "SELBRI"; SN "RELATIVE_CLAUSES"; ST T_DOhU];
   [SN "VOCATIVE"; SN "RELATIVE_CLAUSES"; SN "SELBRI"; SN "RELATIVE_CLAUSES"; SE T_DOhU];
   [SN "VOCATIVE"; SN "RELATIVE_CLAUSES"; SN "SELBRI"; ST T_DOhU];
   [SN "VOCATIVE"; SN "RELATIVE_CLAUSES"; SN "SELBRI"; SE T_DOhU];
   [SN "VOCATIVE"; SN "SELBRI"; SN "RELATIVE_CLAUSES"; ST T_DOhU];
   [SN "VOCATIVE"; SN "SELBRI"; SN "RELATIVE_CLAUSES"; SE T_DOhU];
   [SN "VOCATIVE"; SN "SELBRI"; ST T_DOhU];
   [SN "VOCATIVE"; SN "SELBRI"; SE T_DOhU];
   [SN "VOCATIVE"; SN "RELATIVE_CLAUSES"; SN "CMENE_SEQ"; SN "FREE_SEQ"; SN "RELATIVE_CLAUSES"; ST T_DOhU];
   [SN "VOCATIVE"; SN "RELATIVE_CLAUSES"; SN "CMENE_SEQ"; SN "FREE_SEQ"; SN "RELATIVE_CLAUSES"; SE T_DOhU];
   [SN "VOCATIVE"; SN "RELATIVE_CLAUSES"; SN "CMENE_SEQ"; SN "FREE_SEQ"; ST T_DOhU];
   [SN "VOCATIVE"; SN "RELATIVE_CLAUSES"; SN "CMENE_SEQ"; SN "FREE_SEQ"; SE T_DOhU];
   [SN "VOCATIVE"; SN "CMENE_SEQ"; SN "FREE_SEQ"; SN "RELATIVE_CLAUSES"; ST T_DOhU];
   [SN "VOCATIVE"; SN "CMENE_SEQ"; SN "FREE_SEQ"; SN "RELATIVE_CLAUSES"; SE T_DOhU];
   [SN "VOCATIVE"; SN "CMENE_SEQ"; SN "FREE_SEQ"; ST T_DOhU];
   [SN "VOCATIVE"; SN "CMENE_SEQ"; SN "FREE_SEQ"; SE T_DOhU];
   [SN "VOCATIVE"; SN "RELATIVE_CLAUSES"; SN "CMENE_SEQ"; SN "RELATIVE_CLAUSES"; ST T_DOhU];
   [SN "VOCATIVE"; SN "RELATIVE_CLAUSES"; SN "CMENE_SEQ"; SN "RELATIVE_CLAUSES"; SE T_DOhU];
   [SN "VOCATIVE"; SN "RELATIVE_CLAUSES"; SN "CMENE_SEQ"; ST T_DOhU];
   [SN "VOCATIVE"; SN "RELATIVE_CLAUSES"; SN "CMENE_SEQ"; SE T_DOhU];
   [SN "VOCATIVE"; SN "CMENE_SEQ"; SN "RELATIVE_CLAUSES"; ST T_DOhU];
   [SN "VOCATIVE"; SN "CMENE_SEQ"; SN "RELATIVE_CLAUSES"; SE T_DOhU];
   [SN "VOCATIVE"; SN "CMENE_SEQ"; ST T_DOhU];
   [SN "VOCATIVE"; SN "CMENE_SEQ"; SE T_DOhU];
   [SN "VOCATIVE"; SN "SUMTI"; ST T_DOhU];
   [SN "VOCATIVE"; SN "SUMTI"; SE T_DOhU];
   [SN "VOCATIVE"; ST T_DOhU];
   [SN "VOCATIVE"; SE T_DOhU]]);
("UTTERANCE_ORDINAL",
  [[SN "NUMBER"; ST T_MAI];
   [SN "LERFU_STRING"; ST T_MAI]]);
("PARENTHETICAL",
  [[ST T_TO; SN "TEXT"; ST T_TOI];
   [ST T_TO; SN "TEXT"; SE T_TOI]]);
("SUBSCRIPT",
  [[ST T_XI; SN "FREE_SEQ"; SN "NUMBER"; ST T_BOI];
   [ST T_XI; SN "FREE_SEQ"; SN "NUMBER"; SE T_BOI];
   [ST T_XI; SN "NUMBER"; ST T_BOI];
   [ST T_XI; SN "NUMBER"; SE T_BOI];
   [ST T_XI; SN "FREE_SEQ"; SN "LERFU_STRING"; ST T_BOI];
   [ST T_XI; SN "FREE_SEQ"; SN "LERFU_STRING"; SE T_BOI];
   [ST T_XI; SN "LERFU_STRING"; ST T_BOI];
   [ST T_XI; SN "LERFU_STRING"; SE T_BOI];
   [ST T_XI; SN "FREE_SEQ"; ST T_VEI; SN "FREE_SEQ"; SN "MEX"; ST T_VEhO];
   [ST T_XI; SN "FREE_SEQ"; ST T_VEI; SN "FREE_SEQ"; SN "MEX"; SE T_VEhO];
   [ST T_XI; SN "FREE_SEQ"; ST T_VEI; SN "MEX"; ST T_VEhO];
   [ST T_XI; SN "FREE_SEQ"; ST T_VEI; SN "MEX"; SE T_VEhO];
   [ST T_XI; ST T_VEI; SN "FREE_SEQ"; SN "MEX"; ST T_VEhO];
   [ST T_XI; ST T_VEI; SN "FREE_SEQ"; SN "MEX"; SE T_VEhO];
   [ST T_XI; ST T_VEI; SN "MEX"; ST T_VEhO];
   [ST T_XI; ST T_VEI; SN "MEX"; SE T_VEhO]]);
("VOCATIVE",
  [[SN "COI_NAI_SEQ"; ST T_DOI];
   [SN "COI_NAI_SEQ"];
   [ST T_DOI]]);
("COI_NAI_SEQ",
  [[ST T_COI; ST T_NAI];
   [ST T_COI];
   [SN "COI_NAI_SEQ"; ST T_COI; ST T_NAI];
   [SN "COI_NAI_SEQ"; ST T_COI]]);
("INDICATORS",
  [[ST T_FUhE; SN "INDICATOR_SEQ"];
   [SN "INDICATOR_SEQ"]]);
("INDICATOR_SEQ",
  [[SN "INDICATOR_SEQ"; SN "INDICATOR"];
   [SN "INDICATOR"]]);
("INDICATOR",
  [[ST T_UI; ST T_NAI];
   [ST T_UI];
   [ST T_CAI; ST T_NAI];
   [ST T_CAI];
   [ST T_Y];
   [ST T_DAhO];
   [ST T_FUhO]]);
("NAI_SEQ",
  [[SN "NAI_SEQ"; ST T_NAI];
   [ST T_NAI]]);
("CMENE_SEQ",
  [[SN "CMENE_SEQ"; ST T_CMENE];
   [ST T_CMENE]]);
("NIHO_SEQ_FREE_SEQ",
  [[SN "NIHO_SEQ"; SN "FREE_SEQ"];
   [SN "NIHO_SEQ"]]);
("NIHO_SEQ",
  [[SN "NIHO_SEQ"; ST T_NIhO];
   [ST T_NIhO]])
].
