(* Property theorems C77 - C80: the word glosser cmafihe. *)
From Coq Require Import String Ascii List NArith ZArith Bool Arith Lia.
From Verif Require Import Base LayoutModel LujvoSpec CmModel CmSpec CmProofs2 CmProofs3 CmProofs4 CmProofs5 CmProofs6 CmProofs7 CmProofs8 CmOutSpec CmProofs9.
Import ListNotations.
Open Scope list_scope.

(* ---------- C77: cmavo written together ---------- *)

(* From the left, each time the longest part that has an entry; a question mark for a cmavo
   without one; the same with the classes. *)
Theorem C77_run : forall dict, small_entries dict -> forall dotted us w, run dotted us w -> dict (List.concat us) = None -> List.length (List.concat us) <= 62 ->
  (dotted = false -> (exists u us', us = u :: us' /\ cmavo u) \/ begins_known dict us /\ begins_known (class_of dict) us) ->
  exists ts cs, shown dict us ts /\ shown (class_of dict) us cs /\
    ((N.of_nat (List.length (spaced ts)) < 65536)%N -> (N.of_nat (List.length (spaced cs)) < 65536)%N -> trans_node dict (TT_CMAVO, w) = Ok (spaced cs, spaced ts)).
Proof. exact run_gloss. Qed.
Print Assumptions C77_run.

(* There is one way to do that. *)
Theorem C77_once : forall look us ts ts', shown look us ts -> shown look us ts' -> ts = ts'.
Proof. exact shown_once. Qed.
Print Assumptions C77_once.

(* A compound with an entry of its own has that one. *)
Theorem C77_whole : forall dict, small_entries dict -> forall dotted us w t, run dotted us w -> dict (List.concat us) = Some t -> List.length (List.concat us) <= 30 ->
  trans_node dict (TT_CMAVO, w) = Ok (match class_of dict (List.concat us) with Some c => c | None => [] end, t).
Proof. exact whole_gloss. Qed.
Print Assumptions C77_whole.

(* A run from a vowel, without a stop, of which nothing is known: the buffer is read before
   its beginning. *)
Theorem C77_off_buffer : forall dict, small_entries dict -> forall u us, vowel_cmavo u -> Forall cmavo us -> (N.of_nat (List.length (List.concat (u :: us))) < 65536)%N ->
  (forall a b, u :: us = a ++ b -> a <> [] -> dict (List.concat a) = None) -> trans_node dict (TT_CMAVO, List.concat (u :: us)) = UB UB_bounds.
Proof. exact off_buffer. Qed.
Print Assumptions C77_off_buffer.

Definition ex_d : txt -> option txt :=
  ex_dict [("mi", "I"); ("do", "you"); ("ui", "yay"); ("mido", "we"); ("+mi", "KOhA"); ("+do", "KOhA"); ("+ui", "UI"); ("klama", "goer"); ("%kla", "come"); ("%bri", "pred"); ("%bri2", "reln");
           ("%dja", "food"); ("%djac", "water"); ("%mat", "linen"); ("%matn", "butter")]%string.
Lemma ex_small : small_entries ex_d.
Proof.
  intros w t H. unfold ex_d, ex_dict in H. destruct (find _ _) as [[k v]|] eqn:F; [| discriminate H]. apply find_some in F. destruct F as [I _]. injection H as <-. cbn [snd].
  cbn in I. repeat (destruct I as [I|I]; [injection I as <- <-; split; [discriminate | reflexivity] |]). destruct I.
Qed.
Ltac a_cmavo := eexists _, _; repeat split.
(* midomi: the entry mido, then mi; the classes one by one *)
Example C77_case : run false [lit "mi"; lit "do"; lit "mi"] (lit "midomi") /\ ex_d (lit "midomi") = None /\ (exists u us', [lit "mi"; lit "do"; lit "mi"] = u :: us' /\ cmavo u) /\
  trans_node ex_d (TT_CMAVO, lit "midomi") = Ok (lit "KOhA KOhA KOhA", lit "we I").
Proof.
  split; [refine (r_run false (lit "mi") [lit "do"; lit "mi"] _ _); [left; a_cmavo | repeat constructor; a_cmavo] |]. split; [reflexivity |]. split; [| vm_compute; reflexivity].
  eexists _, _. split; [reflexivity | a_cmavo].
Qed.
Example C77_off_case : vowel_cmavo (lit "uo") /\ trans_node ex_d (TT_CMAVO, lit "uo") = UB UB_bounds /\ cmafihe ex_d OF_TEXT (lit "mi uo") = UB UB_bounds.
Proof. split; [split; [discriminate | reflexivity] |]. split; vm_compute; reflexivity. Qed.
(* a stop inside a run hides the cmavo after it *)
Theorem C77_stop_refuted : exists dict w, small_entries dict /\ dict (lit "mi") = Some (lit "I") /\ dict (lit "ui") = Some (lit "yay") /\ w = lit "mi" ++ lit ".ui" /\
  trans_node dict (TT_CMAVO, w) = Ok (lit "KOhA ?", lit "I ?").
Proof. exists ex_d, (lit "mi.ui"). split; [exact ex_small |]. repeat split; vm_compute; reflexivity. Qed.
Print Assumptions C77_stop_refuted.
(* one letter word without an entry has two question marks *)
Theorem C77_y_refuted : exists dict, small_entries dict /\ dict (lit "ly") = None /\ cmavo_word (lit "ly") /\ trans_node dict (TT_CMAVO, lit "ly") = Ok (lit "? ?", lit "? ?").
Proof.
  exists ex_d. split; [exact ex_small |]. split; [reflexivity |]. split; [| vm_compute; reflexivity].
  exists (lit "ly"), []. split; [left; exists "l"%char, (lit "y"); repeat split; constructor; apply v_y |]. split; [constructor | reflexivity].
Qed.
Print Assumptions C77_y_refuted.
(* with more than 62 letters a buffer is left *)
Theorem C77_long_refuted : exists dict us w, small_entries dict /\ run false us w /\ Forall (fun u => dict u <> None) us /\ trans_node dict (TT_CMAVO, w) = UB UB_bounds.
Proof.
  exists ex_d, (repeat (lit "mi") 32), (List.concat (repeat (lit "mi") 32)). split; [exact ex_small |]. split; [refine (r_run false (lit "mi") (repeat (lit "mi") 31) _ _); [left; a_cmavo |] |].
  - apply Forall_forall. intros x I. apply repeat_spec in I. subst x. a_cmavo.
  - split; [apply Forall_forall; intros x I; apply repeat_spec in I; subst x; discriminate | vm_compute; reflexivity].
Qed.
Print Assumptions C77_long_refuted.

(* ---------- C78: compounds and borrowings ---------- *)

(* The parts of every compound are found again, and shown one by one. *)
Theorem C78_compound : forall dict k p l w gs, parts ((k, p) :: l) -> lujvo ((k, p) :: l) w -> ~ is_conversion p -> glosses dict ((k, p) :: l) gs ->
  (N.of_nat (List.length (dashed gs)) < 65536)%N -> translate_unknown dict w = Ok (dashed gs).
Proof. exact compound_gloss. Qed.
Print Assumptions C78_compound.

(* One that begins with a conversion is shown with a hyphen in front. *)
Theorem C78_hyphen_in_front : forall dict l w gs c k p l', l = (k, c) :: p :: l' -> is_conversion c -> parts l -> lujvo l w -> glosses dict l gs ->
  (N.of_nat (List.length ("-"%char :: dashed gs)) < 65536)%N -> translate_unknown dict w = Ok ("-"%char :: dashed gs).
Proof. exact converted_first. Qed.
Print Assumptions C78_hyphen_in_front.

(* The classifier of a borrowing is shown, and the rest as it is. *)
Theorem C78_borrowing : forall dict p rest w, borrowing p rest w ->
  (N.of_nat (List.length (or_unknown (dict ("%"%char :: p)) ++ text "-[" ++ rest ++ text "]")) < 65536)%N ->
  translate_unknown dict w = Ok (or_unknown (dict ("%"%char :: p)) ++ text "-[" ++ rest ++ text "]").
Proof. exact borrowing_gloss. Qed.
Print Assumptions C78_borrowing.

(* With any word at all, of ordinary length, no buffer is left. *)
Theorem C78_any : forall dict e, (forall w t, dict w = Some t -> List.length t <= e) -> (N.of_nat (e + 12) < 65536)%N ->
  forall w, (N.of_nat ((List.length w + 2) * (e + 12)) < 65536)%N -> exists t, trans_node dict (TT_BRIVLA, w) = Ok (lit "BRIVLA", t).
Proof. exact brivla_any. Qed.
Print Assumptions C78_any.

Ltac no_conversion := intros (n & I); cbn in I; repeat (destruct I as [I|I]; [discriminate I |]); exact I.
Ltac a_parts := first [apply ps_last; [reflexivity | constructor; reflexivity] | apply ps_more; [reflexivity | constructor; reflexivity | a_parts]].
(* klaselbri *)
Definition ex_parts : list part := [(CCV, lit "kla"); (CVC, lit "sel"); (CCV, lit "bri")].
Lemma ex_parts_ok : parts ex_parts.
Proof.
  a_parts.
Qed.
Example C78_case : parts ex_parts /\ lujvo ex_parts (lit "klaselbri") /\ ~ is_conversion (lit "kla") /\ glosses ex_d ex_parts [lit "come"; lit "reln"] /\
  translate_unknown ex_d (lit "klaselbri") = Ok (lit "come-reln").
Proof.
  split; [exact ex_parts_ok |]. split; [exact (l_plain CCV (lit "kla") (CVC, lit "sel") [(CCV, lit "bri")] (or_introl eq_refl)) |]. split; [no_conversion |]. split; [| vm_compute; reflexivity].
  apply (g_part ex_d CCV (lit "kla")); [no_conversion |]. apply (g_converted ex_d CVC (lit "sel") 2 "2"%char CCV (lit "bri") [] (lit "reln") []); [cbn; auto | no_conversion | reflexivity | constructor].
Qed.
Example C78_front_case : parts [(CVC, lit "sel"); (CCV, lit "bri")] /\ is_conversion (lit "sel") /\ glosses ex_d [(CVC, lit "sel"); (CCV, lit "bri")] [lit "reln"] /\
  translate_unknown ex_d (lit "selbri") = Ok (lit "-reln").
Proof.
  split; [apply ps_more; [reflexivity | constructor; reflexivity | apply ps_last; [reflexivity | constructor; reflexivity]] |]. split; [eexists; cbn; left; reflexivity |]. split; [| vm_compute; reflexivity].
  apply (g_converted ex_d CVC (lit "sel") 2 "2"%char CCV (lit "bri") [] (lit "reln") []); [cbn; auto | no_conversion | reflexivity | constructor].
Qed.
Example C78_borrowing_case : borrowing (lit "djac") (lit "spageti") (lit "djacrspageti") /\ translate_unknown ex_d (lit "djacrspageti") = Ok (lit "water-[spageti]").
Proof.
  split; [| vm_compute; reflexivity]. refine (bo (lit "djac") "c" "r" "s" "p" (lit "ageti") _ _); [apply cl_ccvc; constructor; reflexivity | apply gl_r; try reflexivity; intro Q; discriminate Q].
Qed.
Example C78_any_case : (forall w t, ex_d w = Some t -> List.length t <= 6) /\ (N.of_nat ((List.length (lit "xyz'y'yyyaaa") + 2) * (6 + 12)) < 65536)%N /\ trans_node ex_d (TT_BRIVLA, lit "xyz'y'yyyaaa") = Ok (lit "BRIVLA", lit "?-?-?").
Proof.
  split; [| split; vm_compute; reflexivity]. intros w t H. unfold ex_d, ex_dict in H. destruct (find _ _) as [[k v]|] eqn:F; [| discriminate H]. apply find_some in F. destruct F as [I _]. injection H as <-. cbn [snd].
  cbn in I. repeat (destruct I as [I|I]; [injection I as <- <-; cbn; lia |]). destruct I.
Qed.
(* a conversion without an entry of its own goes on to the parts after *)
Theorem C78_conversion_refuted : exists dict l w, small_entries dict /\ parts l /\ lujvo l w /\ l = [(CCV, lit "kla"); (CVC, lit "sel"); (CCV, lit "dja"); (CCV, lit "bri")] /\
  dict (lit "%dja") = Some (lit "food") /\ dict (lit "%bri") = Some (lit "pred") /\ translate_unknown dict w = Ok (lit "come-2nd conv-food-reln").
Proof.
  exists ex_d, [(CCV, lit "kla"); (CVC, lit "sel"); (CCV, lit "dja"); (CCV, lit "bri")], (lit "klaseldjabri"). split; [exact ex_small |]. split; [| split; [| repeat split; vm_compute; reflexivity]].
  - a_parts.
  - exact (l_plain CCV (lit "kla") (CVC, lit "sel") [(CCV, lit "dja"); (CCV, lit "bri")] (or_introl eq_refl)).
Qed.
Print Assumptions C78_conversion_refuted.
(* of two conversions one after the other the first is forgotten *)
Theorem C78_two_refuted : exists dict w v, small_entries dict /\ lujvo [(CCV, lit "kla"); (CVC, lit "ter"); (CVC, lit "sel"); (CCV, lit "bri")] w /\ lujvo ex_parts v /\
  translate_unknown dict w = translate_unknown dict v.
Proof.
  exists ex_d, (lit "klaterselbri"), (lit "klaselbri"). split; [exact ex_small |]. split; [exact (l_plain CCV (lit "kla") (CVC, lit "ter") [(CVC, lit "sel"); (CCV, lit "bri")] (or_introl eq_refl)) |].
  split; [exact (l_plain CCV (lit "kla") (CVC, lit "sel") [(CCV, lit "bri")] (or_introl eq_refl)) | vm_compute; reflexivity].
Qed.
Print Assumptions C78_two_refuted.
(* a classifier that ends in n after a consonant is cut *)
Theorem C78_classifier_refuted : exists dict, small_entries dict /\ form CVCC (lit "matn") /\ glue "n" "r" "d" /\ dict (lit "%matn") = Some (lit "butter") /\
  translate_unknown dict (lit "matn" ++ lit "r" ++ lit "djula") = Ok (lit "linen-[rdjula]").
Proof.
  exists ex_d. split; [exact ex_small |]. split; [constructor; reflexivity |]. split; [apply gl_r; try reflexivity; intro Q; discriminate Q |]. split; [reflexivity | vm_compute; reflexivity].
Qed.
Print Assumptions C78_classifier_refuted.

(* ---------- C79: the scanner ---------- *)

(* Every text is scanned to its end, and every character is in one token, in order. *)
Theorem C79_all : forall s, exists ts, yylex s = Ok ts /\ List.concat (map snd ts) = s.
Proof. exact (fun s => scan_total (S (List.length s)) false 0%Z s (Nat.lt_succ_diag_r _)). Qed.
Print Assumptions C79_all.

(* A word before a blank, an end of line or a bracket is one token, of the kind its letters
   say. *)
Theorem C79_name : forall d1 d2 w s, word w -> ends_in cons w -> ended s ->
  yylex (dot d1 ++ w ++ dot d2 ++ s) = do ts <- yylex s; Ok ((TT_CMENE, dot d1 ++ w ++ dot d2) :: ts).
Proof. exact token_name. Qed.
Print Assumptions C79_name.
Theorem C79_brivla : forall w s, brivla_word w -> ended s -> yylex (w ++ s) = do ts <- yylex s; Ok ((TT_BRIVLA, w) :: ts).
Proof. exact token_brivla. Qed.
Print Assumptions C79_brivla.
Theorem C79_cmavo : forall w s, cmavo_word w -> ~ cvcy w -> ended s -> yylex (w ++ s) = do ts <- yylex s; Ok ((TT_CMAVO, w) :: ts).
Proof. exact token_cmavo. Qed.
Print Assumptions C79_cmavo.
Theorem C79_no_word : forall w s, no_word w -> ended s -> yylex (w ++ s) = do ts <- yylex s; Ok ((Fell, w) :: ts).
Proof. exact token_other. Qed.
Print Assumptions C79_no_word.
(* Those are all the words there are. *)
Theorem C79_kinds : forall w, word w -> ends_in cons w \/ brivla_word w \/ (cmavo_word w /\ ~ cvcy w) \/ no_word w.
Proof. exact token_kinds. Qed.
Print Assumptions C79_kinds.
(* Compounds are among the brivla. *)
Theorem C79_lujvo : forall l w, parts l -> lujvo l w -> brivla_word w.
Proof. exact lujvo_brivla. Qed.
Print Assumptions C79_lujvo.
(* What is in brackets is no word, whatever it is. *)
Theorem C79_brackets : forall c ps s, opening c -> inside 1 ps ->
  yylex (List.concat ([c] :: ps) ++ s) = do ts <- yylex s; Ok (map (fun p => (TT_PAREN, p)) ([c] :: ps) ++ ts).
Proof. exact token_brackets. Qed.
Print Assumptions C79_brackets.

Example C79_case : yylex (lit "lonu mi klaselbri .alis. bl (mi [x]) lilyconu") = Ok
  [(TT_CMAVO, lit "lonu"); (Skipped, lit " "); (TT_CMAVO, lit "mi"); (Skipped, lit " "); (TT_BRIVLA, lit "klaselbri"); (Skipped, lit " "); (TT_CMENE, lit ".alis."); (Skipped, lit " "); (TT_CMENE, lit "bl"); (Skipped, lit " ");
   (TT_PAREN, lit "("); (TT_PAREN, lit "mi "); (TT_PAREN, lit "["); (TT_PAREN, lit "x"); (TT_PAREN, lit "]"); (TT_PAREN, lit ")"); (Skipped, lit " "); (TT_BRIVLA, lit "lilyconu")].
Proof. vm_compute. reflexivity. Qed.
Example C79_inside_case : opening "(" /\ inside 1 [lit "mi "; lit "["; lit "x"; lit "]"; lit ")"].
Proof.
  split; [left; reflexivity |]. assert (N : forall x c, existsb (Ascii.eqb c) x = false -> In c x -> False).
  { intros x c E I. assert (Q : existsb (Ascii.eqb c) x = true) by (apply existsb_exists; exists c; split; [exact I | apply Ascii.eqb_refl]). congruence. }
  apply (in_text (lit "mi ") 1 "["); [discriminate | intros c I; split; intros [->| ->]; refine (N _ _ _ I); reflexivity | left; right; reflexivity |].
  apply in_open; [right; reflexivity |]. apply (in_text (lit "x") 2 "]"); [discriminate | intros c I; split; intros [->| ->]; refine (N _ _ _ I); reflexivity | right; right; reflexivity |].
  apply in_close; [right; reflexivity |]. apply in_last. left. reflexivity.
Qed.
Example C79_word_case : word (lit "klaselbri") /\ brivla_word (lit "klaselbri") /\ cvcy (lit "lilyconu").
Proof.
  split; [split; [discriminate | reflexivity] |]. split.
  - apply (lujvo_brivla ex_parts); [exact ex_parts_ok | exact (l_plain CCV (lit "kla") (CVC, lit "sel") [(CCV, lit "bri")] (or_introl eq_refl))].
  - exists "l"%char, "i"%char, "l"%char, "c"%char, (lit "on"), "u"%char. repeat split. discriminate.
Qed.

(* ---------- C80: the whole program ---------- *)

(* What is printed for a text: its words in order, each with its class and translation. *)
Theorem C80_program : forall dict, small_entries dict -> forall its s outs, laid its s -> Forall2 (item_shown dict) its outs ->
  cmafihe dict OF_TEXT s = Ok (List.concat outs ++ [newline]).
Proof. exact program. Qed.
Print Assumptions C80_program.

Definition ex_text : txt := lit "mi  klama" ++ [newline; newline] ++ lit "(x) djan.".
Example C80_case : laid [Word (lit "mi"); Word (lit "klama"); Paragraph; Brackets [lit "("; lit "x"; lit ")"]; Word (lit "djan.")] ex_text /\
  item_shown ex_d (Word (lit "klama")) (lit "klama <BRIVLA> [goer] ") /\ item_shown ex_d (Word (lit "mi")) (lit "mi <KOhA> [I] ") /\
  cmafihe ex_d OF_TEXT ex_text = Ok (lit "mi <KOhA> [I] klama <BRIVLA> [goer] " ++ [newline] ++ lit "(() (x) ()) djan. <CMENE> [] " ++ [newline]).
Proof.
  split; [| split; [| split; [| vm_compute; reflexivity]]].
  - refine (l_word (lit "mi") _ (lit "  klama" ++ [newline; newline] ++ lit "(x) djan.") _ _); [left; reflexivity |].
    refine (l_blank (lit "  ") _ (lit "klama" ++ [newline; newline] ++ lit "(x) djan.") _ _ _ _); [discriminate | repeat constructor | intros [Q|Q]; discriminate Q |].
    refine (l_word (lit "klama") _ ([newline; newline] ++ lit "(x) djan.") _ _); [right; right; left; reflexivity |].
    refine (l_paragraph 0 _ (lit "(x) djan.") _ _); [intros [Q|Q]; discriminate Q |].
    refine (l_brackets "(" [lit "x"; lit ")"] _ (lit " djan.") _ _ _); [left; reflexivity | |].
    + apply (in_text (lit "x") 1 ")"); [discriminate | intros c [<-|[]]; split; intros [Q|Q]; discriminate Q | right; left; reflexivity | apply in_last; left; reflexivity].
    + refine (l_blank (lit " ") _ (lit "djan.") _ _ _ _); [discriminate | repeat constructor | intros [Q|Q]; discriminate Q |].
      refine (l_word (lit "djan.") _ [] _ l_end). exact I.
  - refine (is_word ex_d (lit "klama") (lit "BRIVLA") (lit "goer") _ _ _); [| reflexivity | reflexivity]. apply ws_brivla; [| reflexivity]. split; [split; [discriminate | reflexivity] |]. split.
    + exists "k"%char, (lit "lam"), "a"%char. repeat split. discriminate.
    + right. intro K. apply cmavo_clus in K. discriminate K.
  - refine (is_word ex_d (lit "mi") (lit "KOhA") (lit "I") _ _ _); [| reflexivity | reflexivity]. refine (ws_cmavo_entry ex_d false [lit "mi"] (lit "mi") (lit "I") _ _ _ _).
    + refine (r_run false (lit "mi") [] _ _); [left; a_cmavo | constructor].
    + split; [exists (lit "mi"), []; split; [left; exists "m"%char, (lit "i"); repeat split; constructor; constructor; reflexivity | split; [constructor | reflexivity]] |].
      intros (a & v & b & c & r & z & E & _). discriminate E.
    + reflexivity.
    + cbn. lia.
Qed.

(* in blocks: the same words, classes and glosses, three rows to a line, on a page less than 512
   wide; [LayoutSpec.laid] leaves no choice *)
Theorem C80_blocks : forall dict, small_entries dict -> forall W its s pss, laid its s -> Forall2 (item_pieces dict) its pss ->
  (W < 512)%Z -> Forall narrow (List.concat pss) ->
  exists out, cmafihe dict (OF_TEXTBLK W) s = Ok (out ++ [newline]) /\ LayoutSpec.laid W (List.concat (map in_rows (List.concat pss))) out.
Proof. exact blocks. Qed.
Print Assumptions C80_blocks.
Theorem C80_latex : forall dict, small_entries dict -> forall its s pss, laid its s -> Forall2 (item_pieces dict) its pss ->
  cmafihe dict OF_LATEX s = Ok (preamble ++ List.concat (map in_latex (List.concat pss)) ++ lines ["\end{document}"; ""; ""]%string).
Proof. exact latex. Qed.
Print Assumptions C80_latex.
(* what is special to LaTeX is not escaped: the bracket that ends the text is commented out *)
Theorem C80_latex_refuted : exists s, cmafihe (fun _ => None) OF_LATEX s = Ok (preamble ++ lit "\textrm{\footnotesize (}\textrm{\footnotesize %}\textrm{\footnotesize )}" ++ lines ["\end{document}"; ""; ""]%string).
Proof. exists (lit "(%)"). vm_compute. reflexivity. Qed.
Print Assumptions C80_latex_refuted.

Example C80_blocks_case : Forall narrow [Glossed (lit "mi") (lit "KOhA") (lit "I"); Glossed (lit "klama") (lit "BRIVLA") (lit "goer")] /\
  cmafihe ex_d (OF_TEXTBLK 12) ex_text = Ok (
    lit "mi   klama  " ++ [newline] ++ lit "KOhA BRIVLA " ++ [newline] ++ lit "I    goer   " ++ [newline; newline; newline]
    ++ lit "( ( ) ( x ) " ++ [newline] ++ lit "(   ) (   ) " ++ [newline] ++ lit "(   ) (   ) " ++ [newline; newline]
    ++ lit "( ) ) djan. " ++ [newline] ++ lit "(   ) CMENE " ++ [newline] ++ lit "(   )       " ++ [newline; newline; newline]).
Proof. split; [repeat constructor; vm_compute; lia |]. vm_compute. reflexivity. Qed.
