(* C47, C48, C55, C56, C57, C58: the glosses. *)
From Coq Require Import String Ascii List NArith ZArith Bool Arith.
From Verif Require Import Base DictModel TransModel TransSpec TransProofs TransProofs2 TransProofs3 TransProofs5 TransProofs6 TransProofs7 TransProofs8.
From Verif Require LujvoSpec LujvoModel MorfModel.
Import ListNotations.
Open Scope string_scope.
Open Scope list_scope.

(* dictionaries for the examples *)
Definition entries (l : list (string * string)) (k : string) : option string :=
  option_map snd (find (fun e => String.eqb (fst e) k) l).

(* ---- C47 ---- *)
(* one rule for each ending, applied to the starred words, or to the whole when no
   word carries a star *)
Theorem C47_plural : exists rule, plural_rule rule /\ forall x y, make_plural x = Ok y <-> ending rule no_glue x y.
Proof. exact plural_exact. Qed.
Print Assumptions C47_plural.
Theorem C47_er : exists rule glue, er_rule rule /\ of_glue glue /\ forall x y, append_er x = Ok y <-> ending rule glue x y.
Proof. exact er_exact. Qed.
Print Assumptions C47_er.
Theorem C47_ing : exists rule, ing_rule rule /\ forall x y, append_ing x = Ok y <-> ending rule no_glue x y.
Proof. exact ing_exact. Qed.
Print Assumptions C47_ing.
(* every text takes each ending in exactly one way *)
Theorem C47_one_form : forall rule glue x, exists! y, ending rule glue x y.
Proof. exact ending_unique. Qed.
Print Assumptions C47_one_form.
Example C47_ending_ex : make_plural "box* of bus*/city* (red)" = Ok "box(es) of bus(es)/city(ies) (red)"
  /\ append_er "make* cake" = Ok "make-r(s) of cake" /\ append_er "go* into" = Ok "go-er(s) into"
  /\ append_ing "give* up" = Ok "giv-ing up" /\ append_ing "see" = Ok "see-ing".
Proof. vm_compute. auto 6. Qed.
(* the documented table; [noun] is the dictionary's own noun form if it has one *)
Theorem C47_table : forall class x ctx noun, star_ok (table class ctx) x ->
  match table class ctx with
  | None => fix_trans_in_context (String class (String ";" x)) ctx noun = Ok None
  | Some (before, form, after) => exists y, inflect form x y /\
      fix_trans_in_context (String class (String ";" x)) ctx noun =
        Ok (Some (before ++ (if uses_noun class ctx && negb (String.eqb noun "") then noun else y) ++ after)%string)
  end.
Proof. exact table_ok. Qed.
Print Assumptions C47_table.
Example C47_table_ex :
  fix_trans_in_context "A;dance" TCX_VERB "" = Ok (Some "danc-ing") /\ fix_trans_in_context "D;man" TCX_VERB "men" = Ok (Some "being men")
  /\ fix_trans_in_context "P;sad" TCX_TAG "" = Ok (Some "sad thing(s)") /\ table "R" TCX_NOUN = Some ("thing(s) ", F_plain, "").
Proof. vm_compute. auto. Qed.
(* the stars are not always taken out (places.dat:317) *)
Theorem C47_stars_refuted : exists x ctx y, fix_trans_in_context (String "D" (String ";" x)) ctx "" = Ok (Some y) /\ ~ starless y.
Proof. exists "wall*/fence*", TCX_QUAL, "wall*/fence*-ish". split; [vm_compute; reflexivity|]. intro H. apply H. cbn. auto 6. Qed.
Print Assumptions C47_stars_refuted.
(* the test for a preposition looks at the first letters only *)
Theorem C47_preposition_refuted : exists x, append_er x = Ok "draw-er(s) ink" /\ x = "draw* ink".
Proof. exists "draw* ink". vm_compute. auto. Qed.
Print Assumptions C47_preposition_refuted.
(* an unknown class letter is copied from a null pointer *)
Theorem C47_class_refuted : exists dict, dict "klama1" = Some "X;go" /\ gloss dict false 1 "klama" 1 TCX_NOUN = UB UB_null.
Proof. exists (entries [("klama1", "X;go")]). vm_compute. auto. Qed.
Print Assumptions C47_class_refuted.

(* ---- C48 ---- *)
(* each redirection leads to the gloss of its target *)
Theorem C48_follows : forall dict canon kind n s s', hops dict n s s' -> forall f, run dict canon kind (n + f) s = run dict canon kind f s'.
Proof. exact hops_run. Qed.
Print Assumptions C48_follows.
(* at the end of the redirections: the table applied to the definition there *)
Theorem C48_found : forall dict canon kind n s s' class x, hops dict n s s' ->
  entry_for dict s' = Some (String class (String ";" x)) -> star_ok (table class (snd (asked s'))) x -> table class (snd (asked s')) <> None -> class <> "@"%char ->
  exists before form after y, table class (snd (asked s')) = Some (before, form, after) /\ inflect form x y /\
    forall f, run dict canon kind (n + S f) s =
      Ok (before ++ (match dict (fst (fst (asked s')) ++ zdec (snd (fst (asked s'))) ++ "n")%string with
                     | Some noun => if uses_noun class (snd (asked s')) && negb (String.eqb noun "") then noun else y
                     | None => y end) ++ after)%string.
Proof. exact found_gloss. Qed.
Print Assumptions C48_found.
(* a chain either ends, within twice the number of entries, or runs in a circle *)
Theorem C48_ends_or_loops : forall dict keys, (forall k v, dict k = Some v -> In k keys) -> forall s,
  ((exists n s', n <= 2 * List.length keys /\ hops dict n s s' /\ forall t, ~ hop dict s' t) \/ cyclic dict s) /\
  ~ ((exists n s', hops dict n s s' /\ forall t, ~ hop dict s' t) /\ cyclic dict s).
Proof. exact ends_xor_loops. Qed.
Print Assumptions C48_ends_or_loops.
(* and in a circle there is no end to it *)
Theorem C48_circle : forall dict canon kind s, cyclic dict s -> forall f, run dict canon kind f s = NoFuel.
Proof. exact cyclic_run. Qed.
Print Assumptions C48_circle.
Definition ex_dict := entries [("brodo1", "@brode2"); ("brode2", "@brodi3"); ("brodi3", "A;walk"); ("broda1", "@brodu1"); ("brodu1", "@broda1")].
Example C48_ex : run ex_dict canon (kind false) 3 ("brodo", 1%Z, TCX_QUAL) = Ok "walk-ing"
  /\ hops ex_dict 2 ("brodo", 1%Z, TCX_QUAL) ("brodi", 3%Z, TCX_QUAL) /\ cyclic ex_dict ("broda", 1%Z, TCX_NOUN).
Proof.
  split; [vm_compute; reflexivity|]. split.
  - eapply hp_one; [apply hop_next; vm_compute; reflexivity|]. eapply hp_one; [apply hop_next; vm_compute; reflexivity|]. constructor.
  - exists 0, 1, ("broda", 1%Z, TCX_NOUN). split; [constructor|].
    eapply hp_one; [apply hop_next; vm_compute; reflexivity|]. eapply hp_one; [apply hop_next; vm_compute; reflexivity|]. constructor.
Qed.
(* without redirections for words every gloss is found: the recursion is no deeper
   than the number of parts of the compound and one more *)
Theorem C48_ends : forall dict cult, (forall k r, dict k = Some ("@" ++ r)%string -> letter_in "*" k) ->
  forall w place ctx f, starless w -> parts_of w + 1 <= f -> gloss dict cult f w place ctx <> NoFuel.
Proof. exact gloss_ends. Qed.
Print Assumptions C48_ends.
Example C48_ends_ex : parts_of "brivlalujvo" = 3 /\ parts_of "zi'o" = 1 /\
  gloss (entries [("valsi1", "D;word"); ("lujvo1", "D;compound*"); ("bridi1", "D;predicate")]) false 4 "brivlalujvo" 1 TCX_NOUN
    = Ok "predicate-ish-word-ish-compound(s)??".
Proof. vm_compute. auto. Qed.
(* a circle can also go through a compound, with no circle of redirections *)
Theorem C48_compound_refuted : exists dict w, (forall s, ~ cyclic dict s) /\ forall f, gloss dict false f w 1 TCX_NOUN = NoFuel.
Proof. exact compound_circle. Qed.
Print Assumptions C48_compound_refuted.

(* ---- C55 ---- *)
(* the gloss of a converted word that the dictionary does not have is that of the
   word's own place *)
Theorem C55_converted : forall dict cult l w cs t place ctx f,
  LujvoSpec.parts l -> LujvoSpec.lujvo l (list_ascii_of_string w) -> Forall2 LujvoSpec.stands_for (map snd l) (cs ++ [t]) ->
  Forall (fun c => conv_number c <> None) cs -> cs <> [] -> conv_number t = None -> (1 <= place <= 5)%Z ->
  entry_for dict (w, place, ctx) = None -> dict w = None ->
  gloss dict cult (S f) w place ctx = gloss dict cult f t (converted cs place) ctx.
Proof. exact converted_lujvo. Qed.
Print Assumptions C55_converted.
(* what converted means: se exchanges places one and two, ve one and four, ...; the
   conversion next to the word is done first *)
Theorem C55_order : forall c c' k k' place, conv_number c = Some k -> conv_number c' = Some k' ->
  converted [c; c'] place = swap k' (swap k place).
Proof. exact converted_two. Qed.
Print Assumptions C55_order.
Example C55_ex : converted ["se"; "te"] 1 = 2%Z /\ converted ["te"; "se"] 1 = 3%Z /\ converted ["se"; "te"] 2 = 3%Z /\
  gloss (entries [("klama2", "D;destination*"); ("klama3", "D;origin*")]) false 2 "selterkla" 2 TCX_NOUN = Ok "origin(s)" /\
  gloss (entries [("klama2", "D;destination*"); ("klama3", "D;origin*")]) false 2 "selterkla" 1 TCX_NOUN = Ok "destination(s)".
Proof. vm_compute. auto 6. Qed.
Example C55_lujvo_ex : exists l, LujvoSpec.parts l /\ LujvoSpec.lujvo l (list_ascii_of_string "selkla") /\
  Forall2 LujvoSpec.stands_for (map snd l) (["se"] ++ ["klama"]).
Proof. exact selkla. Qed.
(* a part of more than five letters does not fit, nor do more than 32 parts (zei
   compounds bring both) *)
Theorem C55_long_part_refuted : exists w, gloss (fun _ => None) false 9 w 1 TCX_NOUN = UB UB_bounds /\ w = "spageti+djica".
Proof. eexists. split; [|reflexivity]. vm_compute. reflexivity. Qed.
Print Assumptions C55_long_part_refuted.
Theorem C55_many_parts_refuted : exists w, gloss (fun _ => None) false 9 w 1 TCX_NOUN = UB UB_bounds /\ w = String.concat "+" (repeat "ci" 33).
Proof. eexists. split; [|reflexivity]. vm_compute. reflexivity. Qed.
Print Assumptions C55_many_parts_refuted.

(* ---- C56 ---- *)
(* a compound the dictionary neither has nor matches by a pattern: the glosses of the
   parts, the last in the place asked for, with hyphens between and a mark of doubt *)
Theorem C56_by_parts : forall dict cult w front first last back place ctx f gs,
  by_patterns dict w front first last back place ctx -> (letter_in "+" w \/ kind cult w = Ok K_LUJVO) ->
  Forall (fun y => absent dict ctx (fst y)) (patterns_for front first last back place) ->
  glosses (gloss dict cult f) (first :: back) place gs ->
  gloss dict cult (S f) w place ctx = Ok (String.concat "-" gs ++ "??")%string.
Proof. exact by_parts. Qed.
Print Assumptions C56_by_parts.
Ltac good_parts := repeat constructor; cbn; try discriminate; try (intros [E|E]; [discriminate|]; repeat (destruct E as [E|E]; [discriminate|]); exact E).
Example C56_ex :
  let d := entries [("klama1", "A;go*"); ("klama2", "D;destination*"); ("zdani1", "D;house"); ("zdani2", "D;dweller"); ("*2+gasnu1", "I;bring* about %1v")] in
  by_patterns d "selzdakla" [(["se"], "zdani")] (["se"], "zdani") ([], "klama") [([], "klama")] 2 TCX_NOUN /\
  Forall (fun y => absent d TCX_NOUN (fst y)) (patterns_for [(["se"], "zdani")] (["se"], "zdani") ([], "klama") [([], "klama")] 2) /\
  kind false "selzdakla" = Ok K_LUJVO /\ glosses (gloss d false 1) [(["se"], "zdani"); ([], "klama")] 2 ["dweller-ish"; "destination(s)"] /\
  gloss d false 2 "selzdakla" 2 TCX_NOUN = Ok "dweller-ish-destination(s)??".
Proof.
  cbv zeta. split; [|split; [|split; [vm_compute; reflexivity|split; [|vm_compute; reflexivity]]]].
  - split; [vm_compute; reflexivity|reflexivity|discriminate|good_parts|cbn; repeat constructor|split; discriminate|vm_compute; reflexivity|reflexivity].
  - cbv [patterns_for flat_map app]. repeat (constructor; [split; vm_compute; reflexivity|]). constructor.
  - exists [(["se"], "zdani")], ([], "klama"), ["dweller-ish"], "destination(s)".
    split; [reflexivity|]. split; [reflexivity|]. split; [constructor; [vm_compute; reflexivity|constructor]|vm_compute; reflexivity].
Qed.
(* the pattern for zi'o (patterns:183) is tried with a component that is not there *)
Theorem C56_ziho_refuted : exists dict w, dict "*4zi'o+1" = Some "-" /\ gloss dict false 9 w 1 TCX_NOUN = UB UB_uninit.
Proof. exists (entries [("*4zi'o+1", "-")]), "zi'o+klama". vm_compute. auto. Qed.
Print Assumptions C56_ziho_refuted.
(* a percent sign at the end of a pattern is read past the end *)
Theorem C56_percent_refuted : exists dict w, dict "*2+klama1" = Some "X;half%" /\ gloss dict false 9 w 1 TCX_NOUN = UB UB_bounds.
Proof. exists (entries [("*2+klama1", "X;half%")]), "zdani+klama". vm_compute. auto. Qed.
Print Assumptions C56_percent_refuted.

(* ---- C57 ---- *)
(* the pattern with the strongest precedence decides, one for the last part before one
   for the first; a pattern can send to another place of the rest of the compound *)
Theorem C57_redirected : forall dict cult w front first last back place ctx f key rest d r t,
  by_patterns dict w front first last back place ctx ->
  chosen dict ctx (patterns_for front first last back place) key rest ->
  (dict (key ++ ctx_letter ctx)%string = Some (String "@" (String d r)) \/
   dict (key ++ ctx_letter ctx)%string = None /\ dict key = Some (String "@" (String d r))) ->
  gloss dict cult f rest (Z.of_N (N_of_ascii d) - 48)%Z ctx = Ok t -> t <> "-" ->
  gloss dict cult (S f) w place ctx = Ok t.
Proof. exact pattern_redirect. Qed.
Print Assumptions C57_redirected.
(* a pattern for this very use is taken as it stands, its % marks filled in *)
Theorem C57_exact : forall dict cult w front first last back place ctx f key rest x t,
  by_patterns dict w front first last back place ctx ->
  chosen dict ctx (patterns_for front first last back place) key rest ->
  dict (key ++ ctx_letter ctx)%string = Some x -> (forall r, x <> String "@" r) ->
  expand (gloss dict cult f rest) x t -> t <> "-" ->
  gloss dict cult (S f) w place ctx = Ok t.
Proof. exact pattern_exact. Qed.
Print Assumptions C57_exact.
(* one for any use is filled in and then put into the form of its class *)
Theorem C57_classed : forall dict cult w front first last back place ctx f key rest class x t b form a,
  by_patterns dict w front first last back place ctx ->
  chosen dict ctx (patterns_for front first last back place) key rest ->
  dict (key ++ ctx_letter ctx)%string = None -> dict key = Some (String class (String ";" x)) -> class <> "%"%char ->
  expand (gloss dict cult f rest) x t -> table class ctx = Some (b, form, a) -> star_ok (table class ctx) t ->
  exists y, inflect form t y /\
    let full := (b ++ (match dict (key ++ "n")%string with
                       | Some noun => if uses_noun class ctx && negb (String.eqb noun "") then noun else y
                       | None => y end) ++ a)%string in
    full <> "-" -> gloss dict cult (S f) w place ctx = Ok full.
Proof. exact pattern_class. Qed.
Print Assumptions C57_classed.
(* patterns:8-9 and 22 *)
Definition pat_dict := entries [("klama1", "A;go*"); ("klama2", "D;destination*"); ("*2+gasnu1", "I;bring* about %1v"); ("*2+gasnu2", "@1");
  ("*2+zmadu2t", "than"); ("*1klama+1", "D;%1n of a journey"); ("zmadu1", "D;excess"); ("gasnu1", "A;do*")].
Lemma C57_ready w place ctx l : canon w = Ok (Some (spelled [([], "klama"); ([], l)])) -> good_part ([], l) -> (1 <= place <= 5)%Z ->
  entry_for pat_dict (w, place, ctx) = None -> pat_dict w = None ->
  by_patterns pat_dict w [([], "klama")] ([], "klama") ([], l) [([], l)] place ctx.
Proof.
  intros C G P E D. split; [exact C|reflexivity|discriminate| |cbn; repeat constructor|exact P|exact E|exact D].
  constructor; [clear; good_parts|constructor; [exact G|constructor]].
Qed.
Example C57_ex :
  by_patterns pat_dict "klagau" [([], "klama")] ([], "klama") ([], "gasnu") [([], "gasnu")] 1 TCX_VERB /\
  chosen pat_dict TCX_VERB (patterns_for [([], "klama")] ([], "klama") ([], "gasnu") [([], "gasnu")] 1) "*2+gasnu1" "klama" /\
  gloss pat_dict false 2 "klagau" 1 TCX_VERB = Ok "bring-ing about go-ing" /\
  chosen pat_dict TCX_NOUN (patterns_for [([], "klama")] ([], "klama") ([], "gasnu") [([], "gasnu")] 2) "*2+gasnu2" "klama" /\
  gloss pat_dict false 2 "klagau" 2 TCX_NOUN = Ok "go-er(s) of" /\
  by_patterns pat_dict "klamau" [([], "klama")] ([], "klama") ([], "zmadu") [([], "zmadu")] 2 TCX_TAG /\
  chosen pat_dict TCX_TAG (patterns_for [([], "klama")] ([], "klama") ([], "zmadu") [([], "zmadu")] 2) "*2+zmadu2" "klama" /\
  gloss pat_dict false 2 "klamau" 2 TCX_TAG = Ok "than" /\
  gloss pat_dict false 2 "klamau" 1 TCX_NOUN = Ok "excess(es) of a journey(s)".
Proof.
  repeat apply conj; try (apply C57_ready; [vm_compute; reflexivity|good_parts|split; discriminate|vm_compute; reflexivity|reflexivity]); try (vm_compute; reflexivity).
  - exists (firstn 6 (patterns_for [([], "klama")] ([], "klama") ([], "gasnu") [([], "gasnu")] 1)). eexists. split; [reflexivity|].
    cbv [patterns_for flat_map app firstn]. repeat (constructor; [split; vm_compute; reflexivity|]). constructor.
  - exists (firstn 6 (patterns_for [([], "klama")] ([], "klama") ([], "gasnu") [([], "gasnu")] 2)). eexists. split; [reflexivity|].
    cbv [patterns_for flat_map app firstn]. repeat (constructor; [split; vm_compute; reflexivity|]). constructor.
  - exists (firstn 6 (patterns_for [([], "klama")] ([], "klama") ([], "zmadu") [([], "zmadu")] 2)). eexists. split; [reflexivity|].
    cbv [patterns_for flat_map app firstn]. repeat (constructor; [split; vm_compute; reflexivity|]). constructor.
Qed.
(* the patterns for a sixth place (patterns:13) cannot be used: the place is looked up
   past the end of the five *)
Theorem C57_sixth_refuted : exists dict w, dict "*2+gasnu6" = Some "@5" /\ dict "klama5" = Some "D;vehicle" /\
  gloss dict false 9 w 6 TCX_NOUN = UB UB_bounds.
Proof. exists (entries [("*2+gasnu6", "@5"); ("klama5", "D;vehicle")]), "klagau". vm_compute. auto. Qed.
Print Assumptions C57_sixth_refuted.

(* ---- C58 ---- *)
(* a definition without a place is given with a mark of doubt *)
Theorem C58_unplaced : forall dict cult w place ctx t f, entry_for dict (w, place, ctx) = None -> dict w = Some t ->
  gloss dict cult (S f) w place ctx = Ok (t ++ "??")%string.
Proof. exact unplaced_gloss. Qed.
Print Assumptions C58_unplaced.
(* what is said of a word nothing is known of goes by its kind *)
Theorem C58_unknown : forall dict cult w place ctx f r, unlisted dict w place ctx ->
  MorfModel.morf_scan cult (list_ascii_of_string w) = Ok r ->
  (In (MorfModel.sc_type r) [MorfModel.MT_GISMU; MorfModel.MT_FUIVLA4] -> gloss dict cult (S f) w place ctx = Ok "???") /\
  (MorfModel.sc_type r = MorfModel.MT_CMENE -> gloss dict cult (S f) w place ctx = Ok "[NAME]??") /\
  (In (MorfModel.sc_type r) [MorfModel.MT_BOGUS; MorfModel.MT_BAD_UPPERCASE; MorfModel.MT_CMAVOS] -> gloss dict cult (S f) w place ctx = Ok "??").
Proof. exact unknown_gloss. Qed.
Print Assumptions C58_unknown.
(* a borrowing with a classifier: the gloss of the classifier, in the use asked for, and
   the borrowed part in brackets without the hyphen; commas do not matter *)
Theorem C58_borrowed : forall dict cult w place ctx f r p p' c1 hy c2 t tail ps gs, unlisted dict w place ctx ->
  MorfModel.morf_scan cult (list_ascii_of_string w) = Ok r ->
  In (MorfModel.sc_type r) [MorfModel.MT_FUIVLA3; MorfModel.MT_FUIVLA3_CVC; MorfModel.MT_FUIVLA3X; MorfModel.MT_FUIVLA3X_CVC] ->
  MorfModel.sc_hyph r = Some (String.length p) ->
  w = (p ++ c1 ++ String hy (c2 ++ String t tail))%string -> all_commas c1 -> all_commas c2 -> hy <> ","%char -> t <> ","%char ->
  comma_free p p' -> canon p' = Ok (Some (spelled ps)) -> Forall good_part ps -> List.length ps <= 32 ->
  glosses_in ctx (gloss dict cult f) ps 1 gs ->
  gloss dict cult (S f) w place ctx = Ok (String.concat "-" gs ++ "-[" ++ String t tail ++ "]??")%string.
Proof. exact borrowed_gloss. Qed.
Print Assumptions C58_borrowed.
Definition food := entries [("cidja1", "D;food"); ("spati", "plant")].
Example C58_ex :
  unlisted food "ci,dj,rspageti" 3 TCX_QUAL /\
  MorfModel.morf_scan false (list_ascii_of_string "ci,dj,rspageti") = Ok (MorfModel.Scan MorfModel.MT_FUIVLA3 [0] None (Some 6)) /\
  comma_free "ci,dj," "cidj" /\ canon "cidj" = Ok (Some (spelled [([], "cidja")])) /\
  glosses_in TCX_QUAL (gloss food false 1) [([], "cidja")] 1 ["food-ish"] /\
  gloss food false 2 "ci,dj,rspageti" 3 TCX_QUAL = Ok "food-ish-[spageti]??" /\
  gloss food false 2 "spati" 1 TCX_NOUN = Ok "plant??" /\ gloss food false 2 "klama" 1 TCX_NOUN = Ok "???" /\
  gloss food false 2 "djan" 1 TCX_NOUN = Ok "[NAME]??" /\ unlisted food "djan" 1 TCX_NOUN /\ unlisted food "spageti" 1 TCX_NOUN /\
  gloss food false 2 "spageti" 1 TCX_NOUN = Ok "???".
Proof.
  repeat apply conj; match goal with |- _ = _ => vm_compute; reflexivity | |- comma_free _ _ => reflexivity | _ => idtac end.
  - split; [split; discriminate|reflexivity|reflexivity|apply um_none; vm_compute; reflexivity|intro H; cbn in H; intuition discriminate].
  - exists [], ([], "cidja"), [], "food-ish". repeat (split; [reflexivity || constructor|]). vm_compute. reflexivity.
  - split; [split; discriminate|reflexivity|reflexivity|apply (um_one _ _ _ _ "?"); [vm_compute; reflexivity|intro H; cbn in H; intuition discriminate]|intro H; cbn in H; intuition discriminate].
  - split; [split; discriminate|reflexivity|reflexivity| |intro H; cbn in H; intuition discriminate].
    apply (um_many _ _ _ _ [([], "spati")] ([], "spati") ([], "?") [([], "?")]).
    + split; [vm_compute; reflexivity|reflexivity|discriminate|good_parts|cbn; repeat constructor|split; discriminate|reflexivity|reflexivity].
    + cbv [patterns_for flat_map app]. repeat (constructor; [split; vm_compute; reflexivity|]). constructor.
Qed.
(* the patterns for compounds are used on borrowings as well: "slinkugau" is none *)
Theorem C58_borrowing_refuted : exists dict w r, MorfModel.morf_scan false (list_ascii_of_string w) = Ok r /\
  MorfModel.sc_type r = MorfModel.MT_FUIVLA4 /\ (forall k, letter_in "*" k \/ dict k = None) /\
  gloss dict false 9 w 1 TCX_NOUN = Ok "thing(s) bring-ing about ???-????".
Proof.
  exists (entries [("*2+gasnu1", "I;bring* about %1v")]), "slinkugau". eexists. split; [vm_compute; reflexivity|].
  split; [reflexivity|]. split; [|vm_compute; reflexivity]. intro k. unfold entries. cbn [find fst].
  destruct (String.eqb_spec "*2+gasnu1" k) as [<-|]; [left; left; reflexivity|right; reflexivity].
Qed.
Print Assumptions C58_borrowing_refuted.
