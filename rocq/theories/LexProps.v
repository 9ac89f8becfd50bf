(* C30, C35, C36, C37, C38, C52: from the characters of a text to its words. *)
From Coq Require Import String Ascii List NArith ZArith Bool Arith.
From Verif Require Import Base TokData CmavoData TokModel LujvoSpec MorfModel MorfSpec LexModel LexSpec LexProofs LexProofs2 LexProofs3 LexProofs4 LexProofs5 LexProofs6 LexProofs7 LexProofs8.
Import ListNotations.
Open Scope string_scope.
Open Scope N_scope.
Open Scope list_scope.

(* the tokens of a text with line, column and line ends after; the line ends before
   the first; whether there was a complaint *)
Definition lexed (t : string) : outcome (list (ndata * N * N * N) * N * bool) :=
  do st <- parse_file (S (String.length t)) false (text t) lexer0;
  Ok (map (fun x => match fst x with Node d l c _ _ _ _ => (d, l, c, snd x) end) (rev (lx_toks st)), lx_eols0 st, lx_bad st).

(* ---- C30 ---- *)
(* the lookup finds a word if and only if it is listed, and then with its own entry *)
Theorem C30_lookup : forall w h, hash_cmavo w = Ok h -> forall code s, cmavo_found h w = Some (code, s) <-> listed w code s.
Proof. exact found_listed. Qed.
Print Assumptions C30_lookup.
Theorem C30_listed_found : forall w code s, listed w code s -> exists h, hash_cmavo w = Ok h /\ cmavo_found h w = Some (code, s).
Proof. intros w code s H. pose proof (listed_cell w code s H) as (E & _). exists (Z.of_N code). split; [exact E|]. now apply found_listed. Qed.
Print Assumptions C30_listed_found.
Theorem C30_distinct : forall w code s w' code' s', listed w code s -> listed w' code' s' -> (w = w' <-> code = code').
Proof.
  intros w code s w' code' s' H H'. split; intro E; subst.
  - now destruct (listed_once _ _ _ _ _ H H').
  - destruct (listed_here _ _ _ _ _ H H') as [E _]. rewrite <- (list_ascii_of_string_of_list_ascii w), E. apply list_ascii_of_string_of_list_ascii.
Qed.
Print Assumptions C30_distinct.
(* the lookup stays within its tables for every cmavo of the right characters *)
Theorem C30_within : forall cult w, one_word cult MT_CMAVOS w ->
  Forall (fun c => In c (text "abcdefgijklmnoprstuvxyz'")) w -> exists h, hash_cmavo w = Ok h.
Proof. intros cult w H V. apply (hash_cmavo_word cult w H). now apply chars_valid. Qed.
Print Assumptions C30_within.
(* but not for a lone consonant, which is no cmavo *)
Theorem C30_consonant_refuted : exists w, Forall (fun c => In c (text "abcdefgijklmnoprstuvxyz'")) w /\ hash_cmavo w = UB UB_bounds.
Proof. exists (text "b"). split; [constructor; [cbn; tauto|constructor]|vm_compute; reflexivity]. Qed.
Print Assumptions C30_consonant_refuted.
Example C30_ex : listed (text "ko'a") 750 T_KOhA /\ hash_cmavo (text "ko'a") = Ok 750%Z
  /\ (do h <- hash_cmavo (text "xa'u"); Ok (cmavo_found h (text "xa'u"))) = Ok None /\ one_word false MT_CMAVOS (text "ko'a").
Proof.
  split; [apply (found_listed (text "ko'a") 750%Z); vm_compute; reflexivity|].
  split; [vm_compute; reflexivity|]. split; [vm_compute; reflexivity|]. eexists. split; [vm_compute; reflexivity|]. split; reflexivity.
Qed.

(* ---- C35 ---- *)
(* every text is a sequence of characters and closed comments, or has a comment that
   is not closed *)
Theorem C35_texts : forall t, (exists is, Forall proper is /\ t = written is)
  \/ (exists is a, Forall proper is /\ open_end a /\ t = written is ++ "("%char :: a).
Proof. exact text_cases. Qed.
Print Assumptions C35_texts.
(* a closed comment acts like a space: the same tokens, but for their places *)
Theorem C35_comments : forall cult is st k k', Forall proper is ->
  (List.length (written is) < k)%nat -> (List.length (written (map spaced is)) < k')%nat ->
  om unp (parse_file k cult (written is) st) = om unp (parse_file k' cult (written (map spaced is)) st).
Proof. exact comments_spaces. Qed.
Print Assumptions C35_comments.
(* after an unclosed comment the reader never stops *)
Theorem C35_unclosed : forall cult fuel k pre a st st', open_end a -> parse_file k cult pre st = Ok st' ->
  parse_file fuel cult (pre ++ "("%char :: a) st = NoFuel.
Proof. exact unclosed_parse. Qed.
Print Assumptions C35_unclosed.
Example C35_ex : lexed "mi (a (b) c)klama" = Ok ([(N_CMAVO T_KOhA 924 false, 1, 1, 0); (N_BRIVLA "klama" BVT_GISMU, 1, 13, 0)], 0, false)
  /\ lexed "mi  klama" = Ok ([(N_CMAVO T_KOhA 924 false, 1, 1, 0); (N_BRIVLA "klama" BVT_GISMU, 1, 5, 0)], 0, false)
  /\ lexed "mi (a (b) klama" = NoFuel /\ open_end (text "a (b) klama").
Proof.
  do 3 (split; [vm_compute; reflexivity|]). apply oe_here. do 2 (apply in_char; [discriminate|discriminate|]).
  apply (in_nested (text "b") (text " klama")); repeat (apply in_char; [discriminate|discriminate|]); constructor.
Qed.

(* ---- C36 ---- *)
(* what a text is made of: always something *)
Theorem C36_total : forall is, Forall proper is -> forall l c, exists e, reads l c is e.
Proof. exact reads_total. Qed.
Print Assumptions C36_total.
(* whatever is read is what the words say, in order, with the line ends between *)
Theorem C36_read : forall cult is k st, Forall proper is -> no_nul (written is) -> (List.length (written is) < k)%nat ->
  parse_file k cult (written is) lexer0 = Ok st ->
  exists e o b q, reads 1 1 is e /\ says_all cult Plain (calls None e) o b q
    /\ rev (lx_toks st) = map tok4 (snd (counted o)) /\ lx_eols0 st = fst (counted o) /\ lx_bad st = b || in_quote q.
Proof. exact text_says. Qed.
Print Assumptions C36_read.
(* and whatever the words say is read *)
Theorem C36_said : forall cult is e o b q k, Forall proper is -> no_nul (written is) -> (List.length (written is) < k)%nat ->
  reads 1 1 is e -> within (calls None e) -> says_all cult Plain (calls None e) o b q ->
  exists st, parse_file k cult (written is) lexer0 = Ok st
    /\ rev (lx_toks st) = map tok4 (snd (counted o)) /\ lx_eols0 st = fst (counted o) /\ lx_bad st = b || in_quote q.
Proof. exact says_text. Qed.
Print Assumptions C36_said.
(* a word of 65536 characters does not fit *)
Theorem C36_long_refuted : forall cult w k st, a_word w -> 65536 <= N.of_nat (List.length w) -> (List.length w < k)%nat ->
  parse_file k cult w st = UB UB_bounds.
Proof. exact long_word. Qed.
Print Assumptions C36_long_refuted.
(* a mark in a name, written with commas, does not fit *)
Theorem C36_commas_refuted : exists t, lexed t = UB UB_bounds.
Proof. exists "dal,,,,,,,a,n". vm_compute. reflexivity. Qed.
Print Assumptions C36_commas_refuted.
(* a cmavo with a comma in it is a word for the morphology, but is not read *)
Theorem C36_comma_cmavo_refuted : exists t r, morf_scan false (text t) = Ok r /\ sc_type r = MT_CMAVOS /\ lexed t = Ok ([], 0, true).
Proof. exists "l,o". eexists. split; [vm_compute; reflexivity|]. split; [reflexivity|vm_compute; reflexivity]. Qed.
Print Assumptions C36_comma_cmavo_refuted.
(* the first part of a name opens a quotation *)
Theorem C36_name_quote_refuted : exists t, lexed t = Ok ([], 0, true) /\ exists r, morf_scan false (text t) = Ok r /\ sc_type r = MT_CMENE.
Proof. exists "zoilan". split; [vm_compute; reflexivity|]. eexists. split; [vm_compute; reflexivity|reflexivity]. Qed.
Print Assumptions C36_name_quote_refuted.
Example C36_ex : lexed "lenu mi12klama.
la djan." = Ok ([(N_CMAVO T_LE 812 false, 1, 1, 0); (N_CMAVO T_NU 1050 false, 1, 3, 0); (N_CMAVO T_KOhA 924 false, 1, 6, 0);
    (N_CMAVO T_PA 1092 false, 1, 8, 0); (N_CMAVO T_PA 1204 false, 1, 8, 0); (N_BRIVLA "klama" BVT_GISMU, 1, 8, 1);
    (N_CMAVO T_LA 798 false, 2, 1, 0); (N_CMENE "djan", 2, 4, 0)], 0, false)
  /\ a_word (text "djan") /\ Forall proper (map Ch (text "djan")).
Proof. split; [vm_compute; reflexivity|]. split; [split; [discriminate|]|]; repeat constructor; discriminate. Qed.

(* ---- C37 ---- *)
(* in any text: a quotation word, a delimiter, words other than the delimiter, the
   delimiter make up one token with those words, at the place of the quotation word;
   then the rest is read as usual *)
Theorem C37_quote : forall cult f d ws cs n m l c l1 c1 l2 c2 cs' o b q, In f quote_words -> ~ In d ws -> quoted_calls ws cs n ->
  says_all cult Plain (Call (list_ascii_of_string f) l c :: repeat Line m ++ Call d l1 c1 :: cs ++ Call d l2 c2 :: cs') o b q ->
  exists o', o = repeat EndLine (m + n) ++ Tk (N_ZOI f (string_of_list_ascii d) (spoken ws)) l c :: o' /\ says_all cult Plain cs' o' b q.
Proof. exact quote_calls. Qed.
Print Assumptions C37_quote.
(* words with single spaces between them are kept as they are *)
Theorem C37_verbatim : forall cult f d ws is k st, In f quote_words -> a_word (text d) -> ws <> [] -> Forall a_word ws ->
  ~ In (text d) ws -> Forall proper is -> starts_apart is ->
  let t := list_ascii_of_string (quotation f d (spoken ws)) ++ written is in
  no_nul t -> (List.length t < k)%nat -> parse_file k cult t lexer0 = Ok st ->
  exists n rest, rev (lx_toks st) = (Node (N_ZOI f d (spoken ws)) 1 1 None false None [], n) :: rest.
Proof. exact quote_text. Qed.
Print Assumptions C37_verbatim.
(* other texts are not: numbers, full stops, comments and spaces are changed *)
Theorem C37_verbatim_refuted : exists q q' rest n b, lexed (quotation "zoi" "gy" q) = Ok ((N_ZOI "zoi" "gy" q', 1, 1, 0) :: rest, n, b) /\ q <> q'.
Proof. exists "1 (a)  b.c", "pa b c", [], 0, false. split; [vm_compute; reflexivity|discriminate]. Qed.
Print Assumptions C37_verbatim_refuted.
(* a delimiter of 64 characters does not fit *)
Theorem C37_delimiter_refuted : exists d, a_word (text d) /\ lexed (quotation "zoi" d "a") = UB UB_bounds.
Proof.
  exists "gygygygygygygygygygygygygygygygygygygygygygygygygygygygygygygygy".
  split; [split; [discriminate|]; repeat constructor; discriminate|vm_compute; reflexivity].
Qed.
Print Assumptions C37_delimiter_refuted.
Example C37_ex : quotation "zoi" "gy" "it is, er, this" = "zoi gy it is, er, this gy"
  /\ lexed "zoi gy it is, er, this gy mi" = Ok ([(N_ZOI "zoi" "gy" "it is, er, this", 1, 1, 0); (N_CMAVO T_KOhA 924 false, 1, 27, 0)], 0, false)
  /\ lexed "la'o gy a
b gy mi" = Ok ([(N_ZOI "la'o" "gy" "a b", 1, 1, 0); (N_CMAVO T_KOhA 924 false, 2, 6, 0)], 1, false)
  /\ spoken (map text ["it"; "is,"; "er,"; "this"]) = "it is, er, this".
Proof. vm_compute. repeat split. Qed.

(* ---- C38 ---- *)
(* in a text without numbers and without words that begin with a comma, each token
   stands in the text at the place told *)
Theorem C38_places : forall cult is k st e, Forall proper is -> no_nul (written is) -> (List.length (written is) < k)%nat ->
  reads 1 1 is e -> no_number e -> no_comma_first e -> parse_file k cult (written is) lexer0 = Ok st ->
  forall d l c b g kk u n, In (Node d l c b g kk u, n) (lx_toks st) -> exists s, token_text d s /\ starts_at (written is) l c s.
Proof. exact token_places. Qed.
Print Assumptions C38_places.
(* after a number, the place of the number is told for the next word *)
Theorem C38_number_refuted : exists t rest n b, lexed t = Ok (rest ++ [(N_BRIVLA "klama" BVT_GISMU, 1, 4, 0)], n, b)
  /\ ~ starts_at (text t) 1 4 (text "klama").
Proof.
  exists "mi 1 klama". eexists [_; _], _, _. split; [vm_compute; reflexivity|]. intros (a & b & E & P).
  do 10 (destruct a as [|? a]; [cbn in E, P; congruence|cbn in E; injection E as <- E]). destruct a; discriminate.
Qed.
Print Assumptions C38_number_refuted.
(* and a comma at the beginning is not counted *)
Theorem C38_comma_refuted : exists t, lexed t = Ok ([(N_BRIVLA "klama" BVT_GISMU, 1, 1, 0)], 0, false) /\ ~ starts_at (text t) 1 1 (text "klama").
Proof.
  exists ",klama". split; [vm_compute; reflexivity|]. intros (a & b & E & P).
  do 6 (destruct a as [|? a]; [cbn in E, P; congruence|cbn in E; injection E as <- E]). destruct a; discriminate.
Qed.
Print Assumptions C38_comma_refuted.
Example C38_ex : lexed "mi (a
b) lenuklama" = Ok ([(N_CMAVO T_KOhA 924 false, 1, 1, 0); (N_CMAVO T_LE 812 false, 2, 4, 0); (N_CMAVO T_NU 1050 false, 2, 6, 0); (N_BRIVLA "klama" BVT_GISMU, 2, 8, 0)], 0, false)
  /\ starts_at (text "mi (a
b) lenuklama") 2 8 (text "klama").
Proof. split; [vm_compute; reflexivity|]. exists (text "mi (a
b) lenu"), []. vm_compute. auto. Qed.

(* ---- C52 ---- *)
(* without a complaint nothing is lost or added: the letters of the tokens are the
   letters of the text, but for a quotation word at the very end *)
Theorem C52_letters : forall cult is k st, Forall proper is -> no_nul (written is) -> (List.length (written is) < k)%nat ->
  parse_file k cult (written is) lexer0 = Ok st -> lx_bad st = false ->
  exists e q xs, reads 1 1 is e
    /\ Forall2 (fun x t => match fst x with Node d _ _ _ _ _ _ => token_sounds d t end) (rev (lx_toks st)) xs
    /\ sounds (concat (map event_word e)) = concat xs ++ dropped q.
Proof. exact text_sounds. Qed.
Print Assumptions C52_letters.
(* the word at the end is dropped without a complaint *)
Theorem C52_dropped_refuted : exists t, lexed t = Ok ([(N_CMAVO T_KOhA 924 false, 1, 1, 0)], 0, false) /\ t = "mi zoi".
Proof. exists "mi zoi". split; [vm_compute; reflexivity|reflexivity]. Qed.
Print Assumptions C52_dropped_refuted.
Example C52_ex : lexed "milad" = Ok ([(N_CMAVO T_KOhA 924 false, 1, 1, 0); (N_CMAVO T_LA 798 false, 1, 3, 0); (N_CMENE "d", 1, 5, 0)], 0, false)
  /\ lexed "le,klama" = Ok ([(N_BRIVLA "klama" BVT_GISMU, 1, 4, 0)], 0, true)
  /\ lexed "lo za'e blanu 3 lanme" = Ok ([(N_CMAVO T_LE 840 false, 1, 1, 0); (N_CMAVO T_BAhE 1689 false, 1, 4, 0); (N_BRIVLA "blanu" BVT_GISMU, 1, 9, 0);
      (N_CMAVO T_PA 238 false, 1, 15, 0); (N_BRIVLA "lanme" BVT_GISMU, 1, 15, 0)], 0, false)
  /\ token_sounds (N_BRIVLA "blanu" BVT_GISMU) (text "blanu").
Proof. vm_compute. repeat split. Qed.
