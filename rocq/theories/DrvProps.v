(* Property theorems C68 to C71: plain text, HTML and TeX. *)
From Coq Require Import String Ascii List NArith ZArith Bool Arith.
From Verif Require Import Base TokData CmavoData TokModel TreeModel TreeOutModel ErasureProps GrammarData GramModel GramSpec GramProofs
  PassModel PassSpec ConnectModel ConnectSpec ConnectProofs OutModel OutSpec OutProofs3 OutProofs6 OutProofs7 OutProofs8 OutProofs9 OutProps
  DrvModel DrvSpec DrvProofs DrvProofs2 DrvProofs3.
Import TransModel(tctx).
Import ListNotations.
Open Scope string_scope.
Open Scope list_scope.
(* mi jai pu klama *)
Definition ex_jai : tree :=
  NT "CHUNKS" [NT "TEXT" [NT "TEXT_1" [NT "PARAGRAPHS" [NT "PARAGRAPH" [NT "STATEMENT" [NT "INNER_STATEMENT" [NT
  "STATEMENT_1" [NT "STATEMENT_2" [NT "STATEMENT_3" [NT "SENTENCE" [NT "NO_CU_SENTENCE" [NT "TERMS" [NT "TERMS_1"
  [NT "TERMS_2" [NT "TERM" [NT "TERM_PLAIN_SUMTI" [NT "SUMTI" [NT "SUMTI_1" [NT "SUMTI_2" [NT "SUMTI_3" [NT
  "SUMTI_4" [NT "SUMTI_5" [NT "SUMTI_5A" [NT "SUMTI_6" [Leaf (cm "mi")]]]]]]]]]]]]]; NT "BRIDI_TAIL" [NT
  "BRIDI_TAIL_1" [NT "BRIDI_TAIL_2" [NT "BRIDI_TAIL_3" [NT "MAIN_SELBRI" [NT "SELBRI" [NT "SELBRI_1" [NT "SELBRI_2"
  [NT "SELBRI_3" [NT "SELBRI_4" [NT "SELBRI_5" [NT "SELBRI_6" [NT "TANRU_UNIT" [NT "TANRU_UNIT_1" [NT "TANRU_UNIT_2"
  [NT "JAI_TAG_TU2" [Leaf (cm "jai"); NT "TAG" [NT "STAG" [NT "SIMPLE_TENSE_MODAL" [NT "TIME" [NT "TIME_OFFSET_SEQ"
  [NT "TIME_OFFSET" [Leaf (cm "pu")]]]]]]; NT "TANRU_UNIT_2" [Leaf (bv "klama")]]]]]]]]]]]]]]]]]]]]]]]]]]]]].
(* mi ci moi *)
Definition ex_moi : tree :=
  NT "CHUNKS" [NT "TEXT" [NT "TEXT_1" [NT "PARAGRAPHS" [NT "PARAGRAPH" [NT "STATEMENT" [NT "INNER_STATEMENT" [NT
  "STATEMENT_1" [NT "STATEMENT_2" [NT "STATEMENT_3" [NT "SENTENCE" [NT "NO_CU_SENTENCE" [NT "TERMS" [NT "TERMS_1"
  [NT "TERMS_2" [NT "TERM" [NT "TERM_PLAIN_SUMTI" [NT "SUMTI" [NT "SUMTI_1" [NT "SUMTI_2" [NT "SUMTI_3" [NT
  "SUMTI_4" [NT "SUMTI_5" [NT "SUMTI_5A" [NT "SUMTI_6" [Leaf (cm "mi")]]]]]]]]]]]]]; NT "BRIDI_TAIL" [NT
  "BRIDI_TAIL_1" [NT "BRIDI_TAIL_2" [NT "BRIDI_TAIL_3" [NT "MAIN_SELBRI" [NT "SELBRI" [NT "SELBRI_1" [NT "SELBRI_2"
  [NT "SELBRI_3" [NT "SELBRI_4" [NT "SELBRI_5" [NT "SELBRI_6" [NT "TANRU_UNIT" [NT "TANRU_UNIT_1" [NT "TANRU_UNIT_2"
  [NT "NUMBER_MOI_TU2" [NT "NUMBER" [NT "INNER_NUMBER" [Leaf (cm "ci")]]; Leaf (cm
  "moi")]]]]]]]]]]]]]]]]]]]]]]]]]]]].
(* mi klama i *)
Definition ex_i : tree :=
  NT "CHUNKS" [NT "TEXT" [NT "TEXT_1" [NT "PARAGRAPHS" [NT "PARAGRAPH" [NT "PARAGRAPH" [NT "STATEMENT" [NT
  "INNER_STATEMENT" [NT "STATEMENT_1" [NT "STATEMENT_2" [NT "STATEMENT_3" [NT "SENTENCE" [NT "NO_CU_SENTENCE" [NT
  "TERMS" [NT "TERMS_1" [NT "TERMS_2" [NT "TERM" [NT "TERM_PLAIN_SUMTI" [NT "SUMTI" [NT "SUMTI_1" [NT "SUMTI_2" [NT
  "SUMTI_3" [NT "SUMTI_4" [NT "SUMTI_5" [NT "SUMTI_5A" [NT "SUMTI_6" [Leaf (cm "mi")]]]]]]]]]]]]]; NT "BRIDI_TAIL"
  [NT "BRIDI_TAIL_1" [NT "BRIDI_TAIL_2" [NT "BRIDI_TAIL_3" [NT "MAIN_SELBRI" [NT "SELBRI" [NT "SELBRI_1" [NT
  "SELBRI_2" [NT "SELBRI_3" [NT "SELBRI_4" [NT "SELBRI_5" [NT "SELBRI_6" [NT "TANRU_UNIT" [NT "TANRU_UNIT_1" [NT
  "TANRU_UNIT_2" [Leaf (bv "klama")]]]]]]]]]]]]]]]]]]]]]]]; NT "I_OPT_FREE_SEQ" [Leaf (cm "i")]]]]]].
(* mi klama *)
Definition ex_klama : tree :=
  NT "CHUNKS" [NT "TEXT" [NT "TEXT_1" [NT "PARAGRAPHS" [NT "PARAGRAPH" [NT "STATEMENT" [NT "INNER_STATEMENT" [NT
  "STATEMENT_1" [NT "STATEMENT_2" [NT "STATEMENT_3" [NT "SENTENCE" [NT "NO_CU_SENTENCE" [NT "TERMS" [NT "TERMS_1"
  [NT "TERMS_2" [NT "TERM" [NT "TERM_PLAIN_SUMTI" [NT "SUMTI" [NT "SUMTI_1" [NT "SUMTI_2" [NT "SUMTI_3" [NT
  "SUMTI_4" [NT "SUMTI_5" [NT "SUMTI_5A" [NT "SUMTI_6" [Leaf (cm "mi")]]]]]]]]]]]]]; NT "BRIDI_TAIL" [NT
  "BRIDI_TAIL_1" [NT "BRIDI_TAIL_2" [NT "BRIDI_TAIL_3" [NT "MAIN_SELBRI" [NT "SELBRI" [NT "SELBRI_1" [NT "SELBRI_2"
  [NT "SELBRI_3" [NT "SELBRI_4" [NT "SELBRI_5" [NT "SELBRI_6" [NT "TANRU_UNIT" [NT "TANRU_UNIT_1" [NT "TANRU_UNIT_2"
  [Leaf (bv "klama")]]]]]]]]]]]]]]]]]]]]]]]]]]].


Definition ex_run (tags : list (path * list term_tag)) (t : tree) : outcome (list call) :=
  do_output ex_dict ex_adv ex_unk (ex_props t tags) (add_bracketing_tags (ex_rb t) (expand_bahe_ui t)).
Definition ex_zoi (s : string) : tree := ex_quote (Node (N_ZOI "zoi" "gy" s) 1 1 None false None []).
(* the same with bits for properties of calls *)
Definition html_okb (c : call) : bool :=
  let sh s := N.ltb (N.of_nat (String.length s)) 65536 in
  match c with
  | Loj s | Partial s => harmless s
  | Eng s => harmless s && sh s
  | TagText b p t _ => harmless b && (harmless p && (harmless t && sh t))
  | _ => true
  end.
Lemma html_okb_ok cs : forallb html_okb cs = true -> Forall html_ok cs.
Proof.
  intros H. apply Forall_forall. intros c I. pose proof (proj1 (forallb_forall _ _) H c I) as K.
  destruct c; cbn [html_okb html_ok] in *; try exact Logic.I; try exact K; repeat (apply andb_prop in K; destruct K as [? K]);
    repeat split; try assumption; apply N.ltb_lt; assumption.
Qed.
Definition tex_okb (c : call) : bool :=
  let sh s := N.ltb (N.of_nat (String.length (s ++ s ++ s))) 65536 in
  match c with
  | Loj s | Partial s => inert s
  | Eng s => match sign_of "" "" "" s with Some _ => true | None => no_command s && sh s end
  | TagText b p t _ => inert b && (inert p && (no_command t && sh t))
  | _ => true
  end.
Lemma tex_okb_ok cs : forallb tex_okb cs = true -> Forall tex_ok cs.
Proof.
  intros H. apply Forall_forall. intros c I. pose proof (proj1 (forallb_forall _ _) H c I) as K.
  destruct c; cbn [tex_okb tex_ok] in *; try exact Logic.I; try exact K; try (destruct (sign_of "" "" "" s); [exact Logic.I|]);
    repeat (apply andb_prop in K; destruct K as [? K]); repeat split; try assumption; apply N.ltb_lt; assumption.
Qed.

Definition call_dec (a b : call) : {a = b} + {a <> b}.
Proof. repeat decide equality. Defined.
Definition inb (c : call) (cs : list call) : bool := if in_dec call_dec c cs then true else false.
Lemma inb_ok c cs : inb c cs = true -> In c cs.
Proof. unfold inb. destruct (in_dec call_dec c cs); [auto|discriminate]. Qed.

(* ---- C68: plain text ---- *)

(* every call sequence: the things to show are there, in order, with blanks between them *)
Theorem C68_text : forall cs, exists out, print_text cs = Ok out /\ typeset plain_gaps false (plain_items false cs) out.
Proof. exact text_typeset. Qed.
Print Assumptions C68_text.

(* and so the words of every text *)
Theorem C68_words : forall translate adv_translate translate_unknown P rb t cs, parse_tree t -> let T := expand_bahe_ui t in
  do_output translate adv_translate translate_unknown P (add_bracketing_tags rb T) = Ok cs ->
  exists out l, print_text cs = Ok out /\ typeset plain_gaps false l out /\
    words_of l = map (fun e => written (p_elidable P (fst e)) (snd e)) (leaves [] T).
Proof.
  intros translate adv_translate translate_unknown P rb t cs PT T H. destruct (text_typeset cs) as (out & E & S).
  exists out, (plain_items false cs). split; [exact E|]. split; [exact S|]. rewrite plain_words.
  exact (C63_words translate adv_translate translate_unknown P rb t cs PT H).
Qed.
Print Assumptions C68_words.

Example C68_case : exists cs, ex_calls = Ok cs /\ print_text cs = Ok
  ("[([bajra1 (bajra place):] ^ge /both/ mi /I/me/ gi /and/ ^^le /the described/ gerku /dog/ ku^ <poi /which/ " ++
   "[(ke'a /(relative clause link) #5/) /[is, does]/ <<melbi /beautiful/>>] ku'o>^^) cu <<bajra /runs/>>]" ++ line)%string.
Proof. eexists. split; vm_compute; reflexivity. Qed.

(* the numbers that references mean are not shown: other numbers give the same output *)
Theorem C68_reference_refuted : exists t cs, parse_tree t /\ ex_run [] t = Ok cs /\
  In (Eng "(relative clause link) #5") cs /\ In (Open BR_CEIL 5) cs /\ forall f, print_text (map (renumber f) cs) = print_text cs.
Proof.
  exists ex_out. eexists. split; [exact ex_out_parses|]. split; [vm_compute; reflexivity|].
  split; [apply inb_ok; vm_compute; reflexivity|]. split; [apply inb_ok; vm_compute; reflexivity|].
  intros f. unfold print_text, print_with. now rewrite text_renumber.
Qed.
Print Assumptions C68_reference_refuted.

(* ---- C69: HTML ---- *)

Theorem C69_html : forall cs, Forall html_ok cs -> exists out, print_html cs = Ok out /\
  typeset plain_gaps false (Mark "Lojban translation" :: html_items false cs) (seen false out).
Proof. exact html_typeset. Qed.
Print Assumptions C69_html.

Theorem C69_words : forall translate adv_translate translate_unknown P rb t cs, parse_tree t -> let T := expand_bahe_ui t in
  do_output translate adv_translate translate_unknown P (add_bracketing_tags rb T) = Ok cs -> Forall html_ok cs ->
  exists out l, print_html cs = Ok out /\ typeset plain_gaps false l (seen false out) /\
    words_of l = map (fun e => written (p_elidable P (fst e)) (snd e)) (leaves [] T).
Proof.
  intros translate adv_translate translate_unknown P rb t cs PT T H F. destruct (html_typeset cs F) as (out & E & S).
  exists out, (Mark "Lojban translation" :: html_items false cs). split; [exact E|]. split; [exact S|].
  change (words_of (Mark "Lojban translation" :: html_items false cs)) with (words_of (html_items false cs)). rewrite html_words.
  exact (C63_words translate adv_translate translate_unknown P rb t cs PT H).
Qed.
Print Assumptions C69_words.

Example C69_case : exists cs, ex_calls = Ok cs /\ Forall html_ok cs /\
  exists out, print_html cs = Ok out /\ substring 24 64 (seen false out) = ("(2[bajra1 (bajra place)" ++ line ++ ":] (3ge" ++ line ++ "both mi" ++ line ++ "I/me gi" ++ line ++ "and (4(5le" ++ line ++ "the d")%string.
Proof. eexists. split; [vm_compute; reflexivity|]. split; [apply html_okb_ok; vm_compute; reflexivity|]. eexists. split; vm_compute; reflexivity. Qed.

(* a translation with & < or > makes the program write without end *)
Theorem C69_overrun : forall pre s post, Forall html_ok pre -> special s = false -> harmless s = false ->
  print_html (pre ++ Eng s :: post) = UB UB_bounds.
Proof. exact html_overrun. Qed.
Print Assumptions C69_overrun.
Theorem C69_gloss_refuted : exists t dict cs, parse_tree t /\
  do_output dict ex_adv ex_unk (ex_props t []) (add_bracketing_tags (ex_rb t) (expand_bahe_ui t)) = Ok cs /\ print_html cs = UB UB_bounds.
Proof.
  exists ex_klama, (fun k => if String.eqb k "klama1" then Some "go & come" else None).
  eexists. split; [apply parse_treeb_ok; vm_compute; reflexivity|]. split; [vm_compute; reflexivity|].
  match goal with |- print_html ?l = _ => replace l with (firstn 57 l ++ Eng "go & come" :: skipn 58 l) by (vm_compute; reflexivity) end.
  apply C69_overrun; [|reflexivity|reflexivity]. apply html_okb_ok. vm_compute. reflexivity.
Qed.
Print Assumptions C69_gloss_refuted.

(* a quotation with < is not shown *)
Theorem C69_quote_refuted : exists t cs out, parse_tree t /\ ex_run [] t = Ok cs /\ In (Loj "zoi gy a<b gy") cs /\
  print_html cs = Ok out /\ String.index 0 "a<b" (seen false out) = None.
Proof.
  exists (ex_zoi "a<b"). eexists. eexists. split; [apply parse_treeb_ok; vm_compute; reflexivity|]. split; [vm_compute; reflexivity|].
  split; [apply inb_ok; vm_compute; reflexivity|]. split; vm_compute; reflexivity.
Qed.
Print Assumptions C69_quote_refuted.

(* the label of the first place after jai and a tense names no tag *)
Theorem C69_jai_refuted : exists t tags cs out, parse_tree t /\ ex_run tags t = Ok cs /\ In (Partial "jai+<tag>1: (") cs /\
  print_html cs = Ok out /\ String.index 0 "<tag>" (seen false out) = None /\ exists n, String.index 0 "jai+1: (" (seen false out) = Some n.
Proof.
  exists ex_jai, [(firstn 15 (place ex_jai 0), [TTT_JAITAG (firstn 28 (place ex_jai 2)) (firstn 28 (place ex_jai 3)) 1])].
  eexists. eexists. split; [apply parse_treeb_ok; vm_compute; reflexivity|]. split; [vm_compute; reflexivity|].
  split; [apply inb_ok; vm_compute; reflexivity|]. split; [vm_compute; reflexivity|]. split; [|eexists]; vm_compute; reflexivity.
Qed.
Print Assumptions C69_jai_refuted.

(* ---- C70: TeX ---- *)

(* groups and formulas are closed, and nothing is taken for a comment, column, parameter,
   or index *)
Theorem C70_latex : forall cs, Forall tex_ok cs -> exists out, print_latex cs = Ok out /\ depth 0 out = Some 0 /\ quiet false out = true.
Proof. exact latex_tidy. Qed.
Print Assumptions C70_latex.

Theorem C70_block : forall cs out, Forall tex_ok cs -> print_latex_block cs = Ok out -> depth 0 out = Some 0 /\ quiet false out = true.
Proof. exact blk_tidy. Qed.
Print Assumptions C70_block.

(* TeX shows a translation as it is in the dictionary *)
Theorem C70_gloss : forall pre s post out, special s = false -> no_command s = true -> print_latex (pre ++ Eng s :: post) = Ok out ->
  exists a e b, out = (a ++ "\textsl{\small{}" ++ e ++ "}" ++ b)%string /\ tex_shown e = s.
Proof. exact latex_gloss. Qed.
Print Assumptions C70_gloss.

Example C70_case : exists cs, ex_calls = Ok cs /\ Forall tex_ok cs /\ (exists out, print_latex_block cs = Ok out) /\
  (exists pre post, cs = pre ++ Eng "(relative clause link) #5" :: post) /\
  special "(relative clause link) #5" = false /\ no_command "(relative clause link) #5" = true.
Proof.
  eexists. split; [vm_compute; reflexivity|]. split; [apply tex_okb_ok; vm_compute; reflexivity|]. split; [eexists; vm_compute; reflexivity|].
  split; [apply in_split; apply inb_ok; vm_compute; reflexivity|]. split; reflexivity.
Qed.

(* not so for quotations, nor for labels that refer to a bracket *)
Theorem C70_quote_refuted : exists t cs out, parse_tree t /\ ex_run [] t = Ok cs /\ In (Loj "zoi gy { gy") cs /\
  print_latex cs = Ok out /\ depth 0 out = Some 1.
Proof.
  exists (ex_zoi "{"). eexists. eexists. split; [apply parse_treeb_ok; vm_compute; reflexivity|]. split; [vm_compute; reflexivity|].
  split; [apply inb_ok; vm_compute; reflexivity|]. split; vm_compute; reflexivity.
Qed.
Print Assumptions C70_quote_refuted.
Theorem C70_label_refuted : exists t tags cs out, parse_tree t /\ ex_run tags t = Ok cs /\ In (TagText "#0-moi1" "" "moi place" true) cs /\
  print_latex cs = Ok out /\ quiet false out = false.
Proof.
  exists ex_moi, [(firstn 15 (place ex_moi 0), [TTT_NUMBERMOI (firstn 28 (place ex_moi 1)) (place ex_moi 2) 1])].
  eexists. eexists. split; [apply parse_treeb_ok; vm_compute; reflexivity|]. split; [vm_compute; reflexivity|].
  split; [apply inb_ok; vm_compute; reflexivity|]. split; vm_compute; reflexivity.
Qed.
Print Assumptions C70_label_refuted.

(* ---- C71: TeX with blocks ---- *)

(* the words, translations and brackets in order, in each block the words and below them
   the translations that come after them; nothing is lost if there is no word after the last bracket *)
Theorem C71_blocks : forall cs out, Forall visible cs -> print_latex_block cs = Ok out ->
  exists row lw lg, out = ("\begin{document}" ++ line ++ "\small" ++ line ++ joined (map shown_piece row) ++ "\end{document}" ++ line)%string /\
    Forall gap_piece row /\ filter event cs = flat_map events_of row ++ map Loj lw ++ map Eng lg /\
    (ended cs -> lw = [] /\ lg = []).
Proof. exact blk_pieces. Qed.
Print Assumptions C71_blocks.

Definition visibleb (c : call) : bool := match c with Eng s => negb (String.eqb (tex_gloss s) "") | _ => true end.
Lemma visibleb_ok cs : forallb visibleb cs = true -> Forall visible cs.
Proof.
  intros H. apply Forall_forall. intros c I. pose proof (proj1 (forallb_forall _ _) H c I) as K.
  destruct c; cbn [visibleb visible] in *; try exact Logic.I. intros E. rewrite E in K. discriminate K.
Qed.
Example C71_case : exists cs, ex_run [] ex_klama = Ok cs /\ Forall visible cs /\ ended cs /\ print_latex_block cs = Ok
  ("\begin{document}" ++ line ++ "\small" ++ line ++ "[{}$^{\IS{1}}$ ({}$^{\IS{2}}$ \BT[t]{l}{\bf  mi}\\{\it  I/me}\\[-3pt]{\ISS{}}\ET" ++ line ++
   " ){}$^{\IS{2}}$ \BT[t]{l}{\bf }\\{\it  [is, does]}\\[-3pt]{\ISS{}}\ET" ++ line ++
   " \TL{}{}$^{\IS{3}}$ \BT[t]{l}{\bf  klama}\\{\it  ?klama}\\[-3pt]{\ISS{}}\ET" ++ line ++ " \TR{}{}$^{\IS{3}}$ ]{}$^{\IS{1}}$ \end{document}" ++ line)%string.
Proof.
  eexists. split; [vm_compute; reflexivity|]. split; [apply visibleb_ok; vm_compute; reflexivity|]. split; [|vm_compute; reflexivity].
  match goal with |- ended ?l => exists (firstn 76 l), (Close BR_SQUARE 1), (skipn 77 l) end. split; [vm_compute; reflexivity|]. split; reflexivity.
Qed.

(* a word after the last bracket is lost: mi klama .i is printed as mi klama *)
Theorem C71_last_refuted : exists t t' cs cs', parse_tree t /\ parse_tree t' /\ ex_run [] t = Ok cs /\ ex_run [] t' = Ok cs' /\
  shown_words cs = ["mi"; "klama"; ".i"] /\ shown_words cs' = ["mi"; "klama"] /\ print_latex_block cs = print_latex_block cs' /\
  exists out, print_latex_block cs' = Ok out.
Proof.
  exists ex_i, ex_klama. do 2 eexists. split; [apply parse_treeb_ok; vm_compute; reflexivity|]. split; [apply parse_treeb_ok; vm_compute; reflexivity|].
  split; [vm_compute; reflexivity|]. split; [vm_compute; reflexivity|]. split; [vm_compute; reflexivity|]. split; [vm_compute; reflexivity|].
  split; [vm_compute; reflexivity|]. eexists. vm_compute. reflexivity.
Qed.
Print Assumptions C71_last_refuted.
