(* Generated by tools/gen_rtg.py from /repo/rtg/rtg.pl:118-626. Do not edit. *)
From Coq Require Import String List.
From Verif Require Import TokData.
Import ListNotations.
Open Scope string_scope.

(* how a terminal chooses its word: a single word, by pick or pickx (rtg/rtg.pl:42-53), or
   as in BAI and CAhA (rtg/rtg.pl:190-193, 238-241) *)
Inductive way : Set := Fixed | Short | Whole.

(* rtg/rtg.pl:118-626: the subroutines that call emit: name, which is also the selma'o given
   to emit, way and words *)
Definition terminals : list (tok * way * list string) :=
  [ (T_A, Short, ["a"; "e"; "o"; "u"; "ji"]);
    (T_BAI, Whole, ["ba'i"; "bai"; "bau"; "be'i"; "ca'i"; "cau"; "ci'e"; "ci'o"; "ci'u"; "cu'u"; "de'i"; "di'o"; "do'e"; "du'i"; "du'o"; "fa'e"; "fau"; "fi'e"; "ga'a"; "gau"; "ja'e"; "ja'i"; "ji'e"; "ji'o"; "ji'u"; "ka'a"; "ka'i"; "kai"; "ki'i"; "ki'u"; "koi"; "ku'u"; "la'u"; "le'a"; "li'e"; "ma'e"; "ma'i"; "mau"; "me'a"; "me'e"; "mu'i"; "mu'u"; "ni'i"; "pa'a"; "pa'u"; "pi'o"; "po'i"; "pu'a"; "pu'e"; "ra'a"; "ra'i"; "rai"; "ri'a"; "ri'i"; "sau"; "si'u"; "ta'i"; "tai"; "ti'i"; "ti'u"; "tu'i"; "va'o"; "va'u"; "zau"; "zu'e"]);
    (T_BE, Fixed, ["be"]);
    (T_BEhO, Fixed, ["be'o"]);
    (T_BEI, Fixed, ["bei"]);
    (T_BIhI, Short, ["bi'i"; "bi'o"; "mi'i"]);
    (T_BO, Fixed, ["bo"]);
    (T_BOI, Fixed, ["boi"]);
    (T_BRIVLA, Short, ["zdani"; "zarci"; "klama"; "nanmu"; "bevri"]);
    (T_CAhA, Whole, ["ca'a"; "ka'e"; "nu'o"; "pu'i"]);
    (T_CEhE, Fixed, ["ce'e"]);
    (T_CEI, Fixed, ["cei"]);
    (T_CMENE, Fixed, ["london."]);
    (T_CO, Fixed, ["co"]);
    (T_CU, Fixed, ["cu"]);
    (T_CUhE, Fixed, ["cu'e"]);
    (T_FA, Short, ["fa"; "fe"; "fi"; "fo"; "fu"; "fai"; "fi'a"]);
    (T_FAhA, Short, ["be'a"; "bu'u"; "ca'u"; "du'a"; "fa'a"; "ga'u"; "ne'a"; "ne'i"; "ne'u"; "ni'a"; "pa'o"; "re'o"; "ri'u"; "ru'u"; "te'e"; "ti'a"; "to'o"; "vu'a"; "ze'o"; "zo'a"; "zo'i"; "zu'a"]);
    (T_FEhE, Fixed, ["fe'e"]);
    (T_FEhU, Fixed, ["fe'u"]);
    (T_FIhO, Fixed, ["fi'o"]);
    (T_GA, Short, ["ga"; "ge"; "ge'i"; "go"; "gu"]);
    (T_GAhO, Short, ["ga'o"; "ke'i"]);
    (T_GEhU, Fixed, ["ge'u"]);
    (T_GI, Fixed, ["gi"]);
    (T_GIhA, Short, ["gi'a"; "gi'e"; "gi'i"; "gi'o"; "gi'u"]);
    (T_GOhA, Short, ["bu'a"; "bu'e"; "bu'i"; "co'e"; "du"; "go'a"; "go'e"; "go'i"; "go'o"; "go'u"; "mo"; "nei"; "no'a"]);
    (T_GOI, Short, ["goi"; "ne"; "no'u"; "pe"; "po"; "po'e"; "po'u"]);
    (T_GUhA, Short, ["gu'a"; "gu'e"; "gu'i"; "gu'o"; "gu'u"]);
    (T_I, Fixed, ["i"]);
    (T_JA, Short, ["ja"; "je"; "je'i"; "jo"; "ju"]);
    (T_JAI, Fixed, ["jai"]);
    (T_JOI, Short, ["ce"; "ce'o"; "fa'u"; "jo'e"; "jo'u"; "joi"; "ku'a"; "pi'u"]);
    (T_KE, Fixed, ["ke"]);
    (T_KEhE, Fixed, ["ke'e"]);
    (T_KEI, Fixed, ["kei"]);
    (T_KI, Fixed, ["ki"]);
    (T_KOhA, Short, ["da"; "da'e"; "da'u"; "de"; "de'e"; "de'u"; "dei"; "di"; "di'e"; "di'u"; "do"; "do'i"; "do'o"; "fo'a"; "fo'e"; "fo'i"; "fo'o"; "fo'u"; "ke'a"; "ko"; "ko'a"; "ko'e"; "ko'i"; "ko'o"; "ko'u"; "ma"; "ma'a"; "mi"; "mi'a"; "mi'o"; "ra"; "ri"; "ru"; "ta"; "ti"; "tu"; "vo'a"; "vo'e"; "vo'i"; "vo'o"; "vo'u"; "zi'o"; "zo'e"; "zu'i"]);
    (T_KU, Fixed, ["ku"]);
    (T_KUhO, Fixed, ["ku'o"]);
    (T_LAhE, Short, ["la'e"; "lu'a"; "lu'e"; "lu'i"; "lu'o"; "tu'a"; "vu'i"]);
    (T_LA, Short, ["la"; "lai"; "la'i"]);
    (T_LE, Short, ["le"; "le'e"; "le'i"; "lei"; "lo"; "lo'e"; "lo'i"; "loi"]);
    (T_LIhU, Fixed, ["li'u"]);
    (T_LU, Fixed, ["lu"]);
    (T_LUhU, Fixed, ["lu'u"]);
    (T_ME, Fixed, ["me"]);
    (T_MEhU, Fixed, ["me'u"]);
    (T_MOhI, Fixed, ["mo'i"]);
    (T_MOI, Short, ["cu'o"; "mei"; "moi"; "si'e"]);
    (T_NA, Fixed, ["na"]);
    (T_NAhE, Fixed, ["na'e"]);
    (T_NAI, Fixed, ["nai"]);
    (T_NIhO, Short, ["ni'o"; "no'i"]);
    (T_NOI, Short, ["noi"; "poi"; "voi"]);
    (T_NU, Short, ["du'u"; "jei"; "ka"; "li'i"; "ni"; "nu"; "si'o"; "su'u"]);
    (T_PA, Short, ["bi"; "ce'i"; "ci"; "ci'i"; "da'a"; "dau"; "du'e"; "fei"; "fi'u"; "gai"; "jau"; "ji'i"; "ka'o"; "ki'o"; "ma'u"; "me'i"; "mo'a"; "mu"; "ni'u"; "no"; "no'o"; "pa"; "pai"; "pi"; "pi'e"; "ra'e"; "rau"; "re"; "rei"; "ro"; "so"; "so'a"; "so'e"; "so'i"; "so'o"; "so'u"; "su'e"; "su'o"; "te'o"; "tu'o"; "vai"; "vo"; "xa"; "xo"; "za'u"; "ze"]);
    (T_PEhE, Fixed, ["pe'e"]);
    (T_PU, Short, ["pu"; "ca"; "ba"]);
    (T_RAhO, Fixed, ["ra'o"]);
    (T_ROI, Fixed, ["roi"]);
    (T_SE, Short, ["se"; "te"; "ve"; "xe"]);
    (T_TAhE, Short, ["di'i"; "na'o"; "ru'i"; "ta'e"]);
    (T_TUhE, Fixed, ["tu'e"]);
    (T_TUhU, Fixed, ["tu'u"]);
    (T_VA, Short, ["va"; "vi"; "vu"]);
    (T_VAU, Fixed, ["vau"]);
    (T_VEhA, Short, ["ve'a"; "ve'e"; "ve'i"; "ve'u"]);
    (T_VIhA, Short, ["vi'a"; "vi'e"; "vi'i"; "vi'u"]);
    (T_VUhO, Fixed, ["vu'o"]);
    (T_ZAhO, Short, ["ba'o"; "ca'o"; "co'a"; "co'i"; "co'u"; "de'a"; "di'a"; "mo'u"; "pu'o"; "za'o"]);
    (T_ZEhA, Short, ["ze'a"; "ze'e"; "ze'i"; "ze'u"]);
    (T_ZI, Short, ["zi"; "za"; "zu"]);
    (T_ZIhE, Fixed, ["zi'e"]);
    (T_ZOhU, Fixed, ["zo'u"]) ].
