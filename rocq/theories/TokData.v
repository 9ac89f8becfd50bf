(* Generated by tools/gen_tokens.py from /repo/rpc2x.y:31-202. Do not edit. *)
From Coq Require Import List NArith.
Import ListNotations.

(* rpc2x.y:31-202: the terminal symbols, one constructor per %token line.
   In C these are the integer constants of rpc2x_act.tab.h; they are pairwise
   different there, and only (dis)equality of them is used by the modelled code. *)
Inductive tok : Set :=
| T_GARBAGE
| T_A
| T_BAhE
| T_BAI
| T_BE
| T_BEhO
| T_BEI
| T_BIhE
| T_BIhI
| T_BO
| T_BOI
| T_BRIVLA
| T_BU
| T_BY
| T_CAhA
| T_CAI
| T_CEhE
| T_CEI
| T_CMENE
| T_CO
| T_COI
| T_CU
| T_CUhE
| T_DAhO
| T_DOhU
| T_DOI
| T_FA
| T_FAhA
| T_FAhO
| T_FEhE
| T_FEhU
| T_FIhO
| T_FOI
| T_FUhA
| T_FUhE
| T_FUhO
| T_GA
| T_GAhO
| T_GEhU
| T_GI
| T_GIhA
| T_GOhA
| T_GOI
| T_GUhA
| T_I
| T_JA
| T_JAI
| T_JOhI
| T_JOI
| T_KE
| T_KEhE
| T_KEI
| T_KI
| T_KOhA
| T_KUhE
| T_KUhO
| T_KU
| T_LA
| T_LAhE
| T_LAU
| T_LE
| T_LEhU
| T_LI
| T_LIhU
| T_LOhO
| T_LOhU
| T_LU
| T_LUhU
| T_MAhO
| T_MAI
| T_ME
| T_MEhU
| T_MOhE
| T_MOhI
| T_MOI
| T_NA
| T_NAhE
| T_NAhU
| T_NAI
| T_NIhE
| T_NIhO
| T_NOI
| T_NU
| T_NUhA
| T_NUhI
| T_NUhU
| T_PA
| T_PEhA
| T_PEhE
| T_PEhO
| T_POhA
| T_PU
| T_RAhO
| T_ROI
| T_SA
| T_SE
| T_SEhU
| T_SEI
| T_SI
| T_SOI
| T_SU
| T_TAhE
| T_TEhU
| T_TEI
| T_TO
| T_TOI
| T_TUhE
| T_TUhU
| T_UI
| T_VA
| T_VAU
| T_VEhA
| T_VEhO
| T_VEI
| T_VIhA
| T_VUhO
| T_VUhU
| T_XI
| T_Y
| T_ZAhO
| T_ZEhA
| T_ZEI
| T_ZI
| T_ZIhE
| T_ZO
| T_ZOhU
| T_ZOI
| T_PRIVATE_START_EK
| T_PRIVATE_START_GIHEK
| T_PRIVATE_START_GUHEK
| T_PRIVATE_START_JEK
| T_PRIVATE_END_JEK
| T_PRIVATE_START_JOIK
| T_PRIVATE_END_JOIK
| T_PRIVATE_START_GEK
| T_PRIVATE_START_BAI
| T_PRIVATE_EK_KE
| T_PRIVATE_EK_BO
| T_PRIVATE_JEK_KE
| T_PRIVATE_JEK_BO
| T_PRIVATE_JOIK_KE
| T_PRIVATE_JOIK_BO
| T_PRIVATE_I_JEKJOIK
| T_PRIVATE_I_BO
| T_PRIVATE_GIHEK_KE
| T_PRIVATE_GIHEK_BO
| T_PRIVATE_NAhE_BO
| T_PRIVATE_NAhE_time
| T_PRIVATE_NAhE_space
| T_PRIVATE_NAhE_CAhA
| T_PRIVATE_NA_KU
| T_PRIVATE_NUMBER_MAI
| T_PRIVATE_NUMBER_MOI
| T_PRIVATE_NUMBER_ROI
| T_PRIVATE_START_TENSE
| T_PRIVATE_END_TENSE
| T_PRIVATE_EOF_MARK
| T_IMPOSSIBLE_TOKEN
.

(* rpc2x.y:31-202: position of the terminal in the %token list (stands for its C number) *)
Definition tok_code (t : tok) : N :=
  match t with
  | T_GARBAGE => 0
  | T_A => 1
  | T_BAhE => 2
  | T_BAI => 3
  | T_BE => 4
  | T_BEhO => 5
  | T_BEI => 6
  | T_BIhE => 7
  | T_BIhI => 8
  | T_BO => 9
  | T_BOI => 10
  | T_BRIVLA => 11
  | T_BU => 12
  | T_BY => 13
  | T_CAhA => 14
  | T_CAI => 15
  | T_CEhE => 16
  | T_CEI => 17
  | T_CMENE => 18
  | T_CO => 19
  | T_COI => 20
  | T_CU => 21
  | T_CUhE => 22
  | T_DAhO => 23
  | T_DOhU => 24
  | T_DOI => 25
  | T_FA => 26
  | T_FAhA => 27
  | T_FAhO => 28
  | T_FEhE => 29
  | T_FEhU => 30
  | T_FIhO => 31
  | T_FOI => 32
  | T_FUhA => 33
  | T_FUhE => 34
  | T_FUhO => 35
  | T_GA => 36
  | T_GAhO => 37
  | T_GEhU => 38
  | T_GI => 39
  | T_GIhA => 40
  | T_GOhA => 41
  | T_GOI => 42
  | T_GUhA => 43
  | T_I => 44
  | T_JA => 45
  | T_JAI => 46
  | T_JOhI => 47
  | T_JOI => 48
  | T_KE => 49
  | T_KEhE => 50
  | T_KEI => 51
  | T_KI => 52
  | T_KOhA => 53
  | T_KUhE => 54
  | T_KUhO => 55
  | T_KU => 56
  | T_LA => 57
  | T_LAhE => 58
  | T_LAU => 59
  | T_LE => 60
  | T_LEhU => 61
  | T_LI => 62
  | T_LIhU => 63
  | T_LOhO => 64
  | T_LOhU => 65
  | T_LU => 66
  | T_LUhU => 67
  | T_MAhO => 68
  | T_MAI => 69
  | T_ME => 70
  | T_MEhU => 71
  | T_MOhE => 72
  | T_MOhI => 73
  | T_MOI => 74
  | T_NA => 75
  | T_NAhE => 76
  | T_NAhU => 77
  | T_NAI => 78
  | T_NIhE => 79
  | T_NIhO => 80
  | T_NOI => 81
  | T_NU => 82
  | T_NUhA => 83
  | T_NUhI => 84
  | T_NUhU => 85
  | T_PA => 86
  | T_PEhA => 87
  | T_PEhE => 88
  | T_PEhO => 89
  | T_POhA => 90
  | T_PU => 91
  | T_RAhO => 92
  | T_ROI => 93
  | T_SA => 94
  | T_SE => 95
  | T_SEhU => 96
  | T_SEI => 97
  | T_SI => 98
  | T_SOI => 99
  | T_SU => 100
  | T_TAhE => 101
  | T_TEhU => 102
  | T_TEI => 103
  | T_TO => 104
  | T_TOI => 105
  | T_TUhE => 106
  | T_TUhU => 107
  | T_UI => 108
  | T_VA => 109
  | T_VAU => 110
  | T_VEhA => 111
  | T_VEhO => 112
  | T_VEI => 113
  | T_VIhA => 114
  | T_VUhO => 115
  | T_VUhU => 116
  | T_XI => 117
  | T_Y => 118
  | T_ZAhO => 119
  | T_ZEhA => 120
  | T_ZEI => 121
  | T_ZI => 122
  | T_ZIhE => 123
  | T_ZO => 124
  | T_ZOhU => 125
  | T_ZOI => 126
  | T_PRIVATE_START_EK => 127
  | T_PRIVATE_START_GIHEK => 128
  | T_PRIVATE_START_GUHEK => 129
  | T_PRIVATE_START_JEK => 130
  | T_PRIVATE_END_JEK => 131
  | T_PRIVATE_START_JOIK => 132
  | T_PRIVATE_END_JOIK => 133
  | T_PRIVATE_START_GEK => 134
  | T_PRIVATE_START_BAI => 135
  | T_PRIVATE_EK_KE => 136
  | T_PRIVATE_EK_BO => 137
  | T_PRIVATE_JEK_KE => 138
  | T_PRIVATE_JEK_BO => 139
  | T_PRIVATE_JOIK_KE => 140
  | T_PRIVATE_JOIK_BO => 141
  | T_PRIVATE_I_JEKJOIK => 142
  | T_PRIVATE_I_BO => 143
  | T_PRIVATE_GIHEK_KE => 144
  | T_PRIVATE_GIHEK_BO => 145
  | T_PRIVATE_NAhE_BO => 146
  | T_PRIVATE_NAhE_time => 147
  | T_PRIVATE_NAhE_space => 148
  | T_PRIVATE_NAhE_CAhA => 149
  | T_PRIVATE_NA_KU => 150
  | T_PRIVATE_NUMBER_MAI => 151
  | T_PRIVATE_NUMBER_MOI => 152
  | T_PRIVATE_NUMBER_ROI => 153
  | T_PRIVATE_START_TENSE => 154
  | T_PRIVATE_END_TENSE => 155
  | T_PRIVATE_EOF_MARK => 156
  | T_IMPOSSIBLE_TOKEN => 157
  end%N.

(* rpc2x.y:31-202: all terminals in declaration order *)
Definition all_toks : list tok :=
  [ T_GARBAGE;
    T_A;
    T_BAhE;
    T_BAI;
    T_BE;
    T_BEhO;
    T_BEI;
    T_BIhE;
    T_BIhI;
    T_BO;
    T_BOI;
    T_BRIVLA;
    T_BU;
    T_BY;
    T_CAhA;
    T_CAI;
    T_CEhE;
    T_CEI;
    T_CMENE;
    T_CO;
    T_COI;
    T_CU;
    T_CUhE;
    T_DAhO;
    T_DOhU;
    T_DOI;
    T_FA;
    T_FAhA;
    T_FAhO;
    T_FEhE;
    T_FEhU;
    T_FIhO;
    T_FOI;
    T_FUhA;
    T_FUhE;
    T_FUhO;
    T_GA;
    T_GAhO;
    T_GEhU;
    T_GI;
    T_GIhA;
    T_GOhA;
    T_GOI;
    T_GUhA;
    T_I;
    T_JA;
    T_JAI;
    T_JOhI;
    T_JOI;
    T_KE;
    T_KEhE;
    T_KEI;
    T_KI;
    T_KOhA;
    T_KUhE;
    T_KUhO;
    T_KU;
    T_LA;
    T_LAhE;
    T_LAU;
    T_LE;
    T_LEhU;
    T_LI;
    T_LIhU;
    T_LOhO;
    T_LOhU;
    T_LU;
    T_LUhU;
    T_MAhO;
    T_MAI;
    T_ME;
    T_MEhU;
    T_MOhE;
    T_MOhI;
    T_MOI;
    T_NA;
    T_NAhE;
    T_NAhU;
    T_NAI;
    T_NIhE;
    T_NIhO;
    T_NOI;
    T_NU;
    T_NUhA;
    T_NUhI;
    T_NUhU;
    T_PA;
    T_PEhA;
    T_PEhE;
    T_PEhO;
    T_POhA;
    T_PU;
    T_RAhO;
    T_ROI;
    T_SA;
    T_SE;
    T_SEhU;
    T_SEI;
    T_SI;
    T_SOI;
    T_SU;
    T_TAhE;
    T_TEhU;
    T_TEI;
    T_TO;
    T_TOI;
    T_TUhE;
    T_TUhU;
    T_UI;
    T_VA;
    T_VAU;
    T_VEhA;
    T_VEhO;
    T_VEI;
    T_VIhA;
    T_VUhO;
    T_VUhU;
    T_XI;
    T_Y;
    T_ZAhO;
    T_ZEhA;
    T_ZEI;
    T_ZI;
    T_ZIhE;
    T_ZO;
    T_ZOhU;
    T_ZOI;
    T_PRIVATE_START_EK;
    T_PRIVATE_START_GIHEK;
    T_PRIVATE_START_GUHEK;
    T_PRIVATE_START_JEK;
    T_PRIVATE_END_JEK;
    T_PRIVATE_START_JOIK;
    T_PRIVATE_END_JOIK;
    T_PRIVATE_START_GEK;
    T_PRIVATE_START_BAI;
    T_PRIVATE_EK_KE;
    T_PRIVATE_EK_BO;
    T_PRIVATE_JEK_KE;
    T_PRIVATE_JEK_BO;
    T_PRIVATE_JOIK_KE;
    T_PRIVATE_JOIK_BO;
    T_PRIVATE_I_JEKJOIK;
    T_PRIVATE_I_BO;
    T_PRIVATE_GIHEK_KE;
    T_PRIVATE_GIHEK_BO;
    T_PRIVATE_NAhE_BO;
    T_PRIVATE_NAhE_time;
    T_PRIVATE_NAhE_space;
    T_PRIVATE_NAhE_CAhA;
    T_PRIVATE_NA_KU;
    T_PRIVATE_NUMBER_MAI;
    T_PRIVATE_NUMBER_MOI;
    T_PRIVATE_NUMBER_ROI;
    T_PRIVATE_START_TENSE;
    T_PRIVATE_END_TENSE;
    T_PRIVATE_EOF_MARK;
    T_IMPOSSIBLE_TOKEN ].

(* C comparison of two token numbers (==) *)
Definition tok_eqb (a b : tok) : bool := N.eqb (tok_code a) (tok_code b).
