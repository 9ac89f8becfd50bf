(* Word classification: mk_fetab.pl, mk_vfetab.pl, morf.c, bccheck.c, with the
   automata emitted by the modelled generator. *)
From Coq Require Import String Ascii List NArith Bool Arith.
From Verif Require Import Base DfaModel DfaTables.
Import ListNotations.
Open Scope string_scope.
Open Scope list_scope.
Open Scope N_scope.

(* ---------- mk_fetab.pl: the front-end table ---------- *)

(* membership in a Perl character class *)
Definition cls (s : string) (c : ascii) : bool := existsb (Ascii.eqb c) (list_ascii_of_string s).
(* one of the two-letter alternatives in s, a list of words separated by | *)
Definition pr (l : list string) (a b : ascii) : bool :=
  existsb (fun s => String.eqb s (String a (String b EmptyString))) l.

(* mk_fetab.pl:115-134: symbols and actions *)
Inductive act : Set := AC_CLR | AC_SFT | AC_FRZ.
(* a table entry (mk_fetab.pl:283): symbol, action, store position, inhibit further stores *)
Record fe : Set := Fe { fe_tok : N; fe_act : act; fe_set : bool; fe_inh : bool }.

(* mk_fetab.pl:143-145: characters standing for the 5-bit codes; ~ becomes ' *)
Definition fe_char (x : N) : ascii := if N.eqb x 30 then "'"%char else ascii_of_N (x + 96).

Definition fe_consonants : string := "bcdfgjklmnprstvxz".
(* mk_fetab.pl:255: the initial pairs *)
Definition initial_pairs : list string :=
  ["pl";"pr";"fl";"fr";"bl";"br";"vl";"vr";"cp";"cf";"ct";"ck";"cm";"cn";"cl";"cr";"jb";"jv";"jd";"jg";"jm";
   "sp";"sf";"st";"sk";"sm";"sn";"sl";"sr";"zb";"zv";"zd";"zg";"zm";"tc";"tr";"ts";"kl";"kr";"dj";"dr";"dz";
   "gl";"gr";"ml";"mr";"xl";"xr"].

(* mk_fetab.pl:139-283: entry for the class i of the letter before last (0 none,
   1 n, 2 r, 3 other consonant), saved letter s, new letter g.  The emitted array
   is indexed by i*1024+s*32+g; all three are in range wherever it is read. *)
Definition inact (i s g : N) : fe :=
  let a := fe_char s in
  let b := fe_char g in
  let syl := cls "lmnr" b in
  if (N.eqb i 2 && Ascii.eqb a "l" && Ascii.eqb b "n") || (N.eqb i 1 && Ascii.eqb a "l" && Ascii.eqb b "r")
  then Fe 14 AC_SFT false true
  else if (N.eqb i 3 || N.eqb i 1) && Ascii.eqb a "r" && cls "bcdfgjklmnpstvxz" b
  then Fe (if syl then 14 else 13) AC_SFT false true
  else if N.eqb i 2 && Ascii.eqb a "n" && cls "bcdfgjklmprstvxz" b
  then Fe (if syl then 14 else 13) AC_SFT false true
  else if N.eqb i 3 && Ascii.eqb a "n" && Ascii.eqb b "r" then Fe 14 AC_SFT false true
  else if cls "aeiou" b then Fe 1 AC_CLR false false
  else if Ascii.eqb b "'" then Fe 2 AC_CLR false false
  else if Ascii.eqb b "y" then Fe 3 AC_FRZ false false
  else if N.eqb i 0 && cls "aeiou`" a && Ascii.eqb b "r" then Fe 4 AC_SFT true false
  else if N.eqb i 0 && cls "aeiou`" a && Ascii.eqb b "n" then Fe 5 AC_SFT true false
  else if N.eqb i 0 && cls "aeiou`" a && cls "bcdfgjklmpstvxz" b then Fe 6 AC_SFT true false
  else if N.eqb i 0 && Ascii.eqb a "n" && Ascii.eqb b "r" then Fe 7 AC_SFT false true
  else if cls fe_consonants a && Ascii.eqb a b then Fe 12 AC_SFT false true
  else if cls "bdgvjz" a && cls "ptkfcsx" b then Fe 12 AC_SFT false true
  else if cls "ptkfcsx" a && cls "bdgvjz" b then Fe 12 AC_SFT false true
  else if cls "cjsz" a && cls "cjsz" b then Fe 12 AC_SFT false true
  else if N.eqb i 1 && pr ["dj"; "dz"; "tc"; "ts"] a b then Fe 15 AC_SFT false true
  else if pr ["cx"; "kx"; "xc"; "xk"; "mz"] a b then Fe 12 AC_SFT false true
  else if pr initial_pairs a b then Fe (if syl then 9 else 8) AC_SFT false true
  else if cls fe_consonants a && cls fe_consonants b then Fe (if syl then 11 else 10) AC_SFT false true
  else Fe 0 AC_CLR false false.

(* ---------- mk_vfetab.pl: the vowel table ---------- *)

(* mk_vfetab.pl:21 *)
Definition vsyms : list ascii := [","; "C"; "y"; "a"; "e"; "i"; "o"; "u"]%char.
(* mk_vfetab.pl:25-47 on the last three symbols *)
Definition vcheck (i j k : N) : N :=
  let x := nth (N.to_nat i) vsyms ","%char in
  let a := nth (N.to_nat j) vsyms ","%char in
  let b := nth (N.to_nat k) vsyms ","%char in
  if Ascii.eqb b "," then 0
  else if pr ["ai"; "au"; "ei"; "oi"] a b then 16
  else if cls "iu" a && cls "aeiou" b then 17
  else if cls "aeiou" a && cls "aeiou" b then 18
  else if cls "iu" a && Ascii.eqb b "y" then 19
  else if Ascii.eqb a "C" && Ascii.eqb b "y" then 3
  else if cls "Cy" x && Ascii.eqb a "y" && Ascii.eqb b "y" then 20
  else if Ascii.eqb a "C" && cls "aeiou" b then 1
  else 0.

(* ---------- morf.c ---------- *)

(* morf.c:67-77 *)
Definition s2l (s : N) : N :=
  nth (N.to_nat s) [0; 0; 3; 3; 3; 0; 3; 3;  0; 0; 3; 3; 3; 3; 1; 0;
                    3; 0; 2; 3; 3; 0; 3; 0;  3; 0; 3; 0; 0; 0; 0; 0] 0.

(* morf.c:110-154 mapchar: the letters of both cases to 1..26 (bit 7 for capitals),
   ' to 30, everything else to 31.  Given by cases instead of 256 cells. *)
Definition mapchar (c : ascii) : bool * N :=
  let n := N_of_ascii c in
  if (65 <=? n) && (n <=? 90) then (true, n - 64)
  else if (97 <=? n) && (n <=? 122) then (false, n - 96)
  else if N.eqb n 39 then (false, 30)
  else (false, 31).

(* morf.c:155-196 vmapchar, likewise *)
Definition vmapchar (c : ascii) : N :=
  if cls "aA" c then 3 else if cls "eE" c then 4 else if cls "iI" c then 5
  else if cls "oO" c then 6 else if cls "uU" c then 7 else if cls "yY" c then 2
  else if Ascii.eqb c "," then 0 else 1.

(* morf.h:18-30 *)
Inductive morf_type : Set :=
| MT_BOGUS | MT_GISMU | MT_LUJVO | MT_FUIVLA3 | MT_FUIVLA3_CVC | MT_FUIVLA3X | MT_FUIVLA3X_CVC
| MT_FUIVLA4 | MT_CMAVOS | MT_CMENE | MT_BAD_UPPERCASE.

(* the variables of morf_scan (morf.c:209-247).  vsm is the triple of its octal
   digits; positions are offsets in the word; lists hold the newest entry first. *)
Record mstate : Type := MState {
  m_L : N; m_S : N; m_vsm : N * N * N;
  m_starts : list nat; m_cstart : list nat;
  m_inhibited : bool; m_initial : bool; m_last : act;
  m_p1 : option nat; m_p2 : option nat; m_hyph3 : option nat; m_hyph4 : option nat;
  m_upper : bool; m_state : N
}.
(* morf.c:213, 222-247 *)
Definition m_init : mstate :=
  MState 0 0 (1, 1, 1) [] [] false true AC_CLR None None None None false 0.

(* morf_attribute[state] *)
Definition morf_attribute (s : N) : string := nth (N.to_nat s) (t_attr morf_tables) "".
(* morf_exitval[state] *)
Definition morf_exitval (s : N) : string := nth (N.to_nat s) (t_exit morf_tables) "".

(* morf.c:273-302: the token of a letter, and its table entry.  (A vsm without its
   upper two digits cannot arise: commas are skipped before.) *)
Definition letter_token (L Sv : N) (v : N * N * N) (c : ascii) : N * fe :=
  let '(v1, v2, v3) := v in
  let e := inact L Sv (snd (mapchar c)) in
  let tok := fe_tok e in
  (if N.eqb tok 1 || N.eqb tok 3 then vcheck v1 v2 v3
   else if N.eqb v1 0 && N.eqb v2 0 then 0 else tok, e).

(* morf.c:258-370: one turn of the loop for a character other than a comma at
   offset p; [inr] leaves the loop with state < 0 *)
Definition morf_step (p : nat) (c : ascii) (m : mstate) : outcome (option mstate) :=
  let '(_, v2, v3) := m_vsm m in
  let vsm := (v2, v3, vmapchar c) in
  let '(upper, G) := mapchar c in
  let '(tok, e) := letter_token (m_L m) (m_S m) vsm c in
  let inhibited := m_inhibited m || fe_inh e in
  let starts := if (fe_set e && negb inhibited) || m_initial m then p :: m_starts m else m_starts m in
  let cstart := match m_last m, fe_act e with AC_FRZ, AC_SFT => p :: m_cstart m | _, _ => m_cstart m end in
  let at_ := morf_attribute (m_state m) in
  let hyph3 := if String.eqb at_ "AT_S3_3" || String.eqb at_ "AT_XS3_3" then m_p2 m else m_hyph3 m in
  let hyph4 := if String.eqb at_ "AT_S3_4" || String.eqb at_ "AT_XS3_4" then m_p2 m else m_hyph4 m in
  do next <- next_state morf_tables (Some (m_state m)) tok;
  let '(L, Sv) := match fe_act e with
                 | AC_CLR => (0, 0)
                 | AC_SFT => (s2l (m_S m), G)
                 | AC_FRZ => (m_L m, m_S m)
                 end in
  match next with
  | None => Ok None
  | Some s => Ok (Some (MState L Sv vsm starts cstart inhibited false (fe_act e)
                          (Some p) (m_p1 m) hyph3 hyph4 (m_upper m || upper) s))
  end.

(* morf.c:256-374: the loop *)
Fixpoint morf_loop (p : nat) (w : list ascii) (m : mstate) : outcome (option mstate) :=
  match w with
  | [] => Ok (Some m)
  | c :: w =>
      if Ascii.eqb c "," then morf_loop (S p) w m
      else do r <- morf_step p c m;
           match r with
           | None => Ok None
           | Some m => morf_loop (S p) w m
           end
  end.

(* ---------- bccheck.c ---------- *)

(* bccheck.c:38-79 mapchar; order of the tokens 16-19.  Given by cases. *)
Definition bc_mapchar (c : ascii) : N :=
  let n := N_of_ascii c in
  if cls "aA" c then 0 else if cls "eE" c then 1 else if cls "iI" c then 2 else if cls "oO" c then 3
  else if cls "uU" c then 4 else if cls "yY" c then 5 else if cls "dD" c then 6 else if cls "lL" c then 7
  else if ((65 <=? n) && (n <=? 90)) || ((97 <=? n) && (n <=? 122)) then 8
  else if Ascii.eqb c "'" then 9 else if Ascii.eqb c "," then 10 else 11.

Definition bc_exitval (s : N) : string := nth (N.to_nat s) (t_exit bc_tables) "".
Definition bc_attribute (s : N) : string := nth (N.to_nat s) (t_attr bc_tables) "".

(* what is_bad_cmene tells its caller: the return value, *split, and *ladoi, *tail
   ([None]: not assigned, or assigned from an unset variable) *)
Record cmene_info : Set := CInfo { is_bad : bool; can_split : bool; ladoi : option nat; tail : option nat }.

(* bccheck.c:89-123: the loop and the final switch.  [ns] is the variable ns
   ([None] before the first assignment). *)
Fixpoint bc_loop (p : nat) (w : list ascii) (cs : N) (ns : option N) (ladoi_1 : option nat)
  : outcome cmene_info :=
  match w with
  | [] =>
      match ns with
      | None => UB UB_uninit
      | Some ns => if String.eqb (bc_exitval ns) "BC_CMENE_OK" then Ok (CInfo false false None None)
                   else Ok (CInfo true false None None)
      end
  | c :: w =>
      if N.eqb (bc_mapchar c) 10 then bc_loop (S p) w cs ns ladoi_1
      else
        do r <- next_state bc_tables (Some cs) (bc_mapchar c);
        match r with
        | None => UB UB_bounds
        | Some n =>
            if String.eqb (bc_exitval n) "BC_CMENE_BAD_NOSPLIT" then Ok (CInfo true false ladoi_1 (Some p))
            else if String.eqb (bc_exitval n) "BC_CMENE_BAD_SPLIT" then Ok (CInfo true true ladoi_1 (Some p))
            else bc_loop (S p) w n (Some n)
                   (if String.eqb (bc_attribute n) "ATTR_SEEN_LD" then Some p else ladoi_1)
        end
  end.
(* bccheck.c:82-126 *)
Definition is_bad_cmene (w : list ascii) : outcome cmene_info := bc_loop 0 w 0 None None.

(* ---------- the end of morf_scan ---------- *)

(* morf.c:383-409: processed category (by the word type it stands for) and decrement *)
Inductive wcat : Set :=
| W_UNKNOWN | W_CMAVOS | W_CMAVOS_END_CY | W_GISMU | W_LUJVO | W_CULTURAL_LUJVO | W_FUIVLA3 | W_FUIVLA3_CVC
| W_FUIVLA3X | W_FUIVLA3X_CVC | W_FUIVLA4 | W_CMENE | W_BAD_TOSMABRU | W_CULTURAL_BAD_TOSMABRU | W_BAD_SLINKUI.
Definition categories : list (string * (wcat * bool)) :=
  [("R_CMAVOS", (W_CMAVOS, false)); ("R_CMAVOS_END_CY", (W_CMAVOS_END_CY, false));
   ("R_GISMU_0", (W_GISMU, false)); ("R_GISMU_1", (W_GISMU, true));
   ("R_LUJVO_0", (W_LUJVO, false)); ("R_LUJVO_1", (W_LUJVO, true));
   ("R_CULTURAL_LUJVO_0", (W_CULTURAL_LUJVO, false)); ("R_CULTURAL_LUJVO_1", (W_CULTURAL_LUJVO, true));
   ("R_STAGE3_0", (W_FUIVLA3, false)); ("R_STAGE3_1", (W_FUIVLA3, true));
   ("R_STAGE3_1_CVC", (W_FUIVLA3_CVC, true));
   ("R_X_STAGE3_0", (W_FUIVLA3X, false)); ("R_X_STAGE3_0_CVC", (W_FUIVLA3X_CVC, false));
   ("R_X_STAGE3_1", (W_FUIVLA3X, true)); ("R_X_STAGE3_1_CVC", (W_FUIVLA3X_CVC, true));
   ("R_STAGE4_0", (W_FUIVLA4, false)); ("R_STAGE4_1", (W_FUIVLA4, true));
   ("R_CMENE", (W_CMENE, false));
   ("R_BAD_TOSMABRU", (W_BAD_TOSMABRU, true)); ("R_CULTURAL_BAD_TOSMABRU", (W_CULTURAL_BAD_TOSMABRU, true));
   ("R_BAD_SLINKUI", (W_BAD_SLINKUI, false))].
Definition category (r : string) : wcat * bool :=
  match find (fun x => String.eqb (fst x) r) categories with
  | Some (_, x) => x
  | None => (W_UNKNOWN, false)
  end.

(* what morf_scan tells its caller: the word type, the recorded word starts in
   order (the last one is **buf_end), and the extra data for names and stage 3
   fu'ivla (offset of the hyphen) *)
Record scan : Set := Scan { sc_type : morf_type; sc_starts : list nat;
                            sc_cmene : option cmene_info; sc_hyph : option nat }.

(* morf.c:411-479, 678-681 for a scan that ended in state m.  [cult] is
   allow_cultural_rafsi.  *)
Definition morf_end (cult : bool) (w : list ascii) (m : mstate) : outcome scan :=
  let '(result, decrement) := category (morf_exitval (m_state m)) in
  let all := rev (m_starts m) in
  let cut := rev (if decrement : bool then tl (m_starts m) else m_starts m) in
  let up t := if m_upper m then MT_BAD_UPPERCASE else t in
  match result with
  | W_CMAVOS_END_CY => Ok (Scan (up MT_CMAVOS) (all ++ rev (m_cstart m)) None None)
  | W_CMAVOS => Ok (Scan (up MT_CMAVOS) all None None)
  | W_GISMU => Ok (Scan (up MT_GISMU) cut None None)
  | W_LUJVO => Ok (Scan (up MT_LUJVO) cut None None)
  | W_CULTURAL_LUJVO => Ok (Scan (up (if cult : bool then MT_LUJVO else MT_BOGUS)) cut None None)
  | W_FUIVLA3 => Ok (Scan (up MT_FUIVLA3) cut None (m_hyph4 m))
  | W_FUIVLA3_CVC => Ok (Scan (up MT_FUIVLA3_CVC) cut None (m_hyph3 m))
  | W_FUIVLA3X => Ok (Scan (up MT_FUIVLA3X) cut None (m_hyph4 m))
  | W_FUIVLA3X_CVC => Ok (Scan (up MT_FUIVLA3X_CVC) cut None (m_hyph3 m))
  | W_FUIVLA4 => Ok (Scan (up MT_FUIVLA4) cut None None)
  | W_BAD_TOSMABRU | W_CULTURAL_BAD_TOSMABRU | W_BAD_SLINKUI => Ok (Scan MT_BOGUS cut None None)
  | W_CMENE =>
      do i <- is_bad_cmene w;
      Ok (Scan MT_CMENE (firstn 1 all) (Some i) None)
  | W_UNKNOWN => Ok (Scan MT_BOGUS all None None)
  end.

(* morf.c:203-682 morf_scan.  The starts recorded before a syntax error are not
   returned (no caller reads them). *)
Definition morf_scan (cult : bool) (w : list ascii) : outcome scan :=
  do r <- morf_loop 0 w m_init;
  match r with
  | None => Ok (Scan MT_BOGUS [] None None)
  | Some m => morf_end cult w m
  end.
