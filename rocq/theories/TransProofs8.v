(* Glosses of words that the dictionary does not have. *)
From Coq Require Import String Ascii List NArith ZArith Bool Arith Lia.
From Verif Require Import Base DictModel TransModel TransSpec TransProofs TransProofs2 TransProofs3 TransProofs4 TransProofs5 TransProofs6 TransProofs7.
From Verif Require MorfModel.
Import ListNotations.
Open Scope string_scope.
Open Scope list_scope.

Lemma unplaced_gloss dict cult w place ctx t f : entry_for dict (w, place, ctx) = None -> dict w = Some t ->
  gloss dict cult (S f) w place ctx = Ok (t ++ "??")%string.
Proof.
  intros E D. unfold gloss. cbn [adv_translate]. unfold adv_body, entry_for, asked in *. destruct (Z.eqb place 0).
  - rewrite sapp_assoc. destruct (dict (w ++ zdec 1 ++ ctx_letter TCX_VERB)%string); [discriminate E|]. rewrite E, D. reflexivity.
  - rewrite sapp_assoc. destruct (dict (w ++ zdec place ++ ctx_letter ctx)%string); [discriminate E|]. rewrite E, D. reflexivity.
Qed.

Lemma unmatched_none dict cult w place ctx f : (1 <= place <= 5)%Z -> unmatched dict w place ctx ->
  attempt_pattern_match dict canon (gloss dict cult f) w place ctx = Ok None.
Proof.
  intros P [C|c C N|front first last back B AB]; unfold attempt_pattern_match.
  - rewrite C. reflexivity.
  - rewrite C. cbn [obind]. apply has_not in N. rewrite N. reflexivity.
  - destruct B as [C E NF G L PL EN D]. rewrite C. cbn [obind].
    destruct (has "+" (spelled (first :: back))); [|reflexivity].
    destruct (split_spelled (first :: back) G L) as (cs & SP & F). rewrite SP. cbn [obind].
    pose proof (Forall2_length _ _ _ F) as LL.
    assert (2 <= List.length (first :: back)) by (rewrite E, app_length; destruct front; [congruence|cbn; lia]).
    destruct cs as [|c0 [|c1 cs]]; [cbn [List.length] in *; lia|cbn [List.length] in *; lia|].
    eapply (no_pattern dict canon (kind cult)); eauto.
Qed.
Lemma unlisted_gloss dict cult w place ctx f : unlisted dict w place ctx ->
  gloss dict cult (S f) w place ctx =
    (do k <- kind cult w;
     do u <- match k with
             | K_NONE => Ok None
             | K_OPAQUE => Ok (Some "?")
             | K_LUJVO => translate_lujvo canon (gloss dict cult f) w place
             | K_FUIVLA3 h =>
                 do l <- translate_fuivla_prefix canon (gloss dict cult f) (no_commas (substring 0 h w)) ctx;
                 match after_hyphen 0 (substring h (String.length w) w) with
                 | None => UB UB_bounds
                 | Some p => Ok (Some (l ++ "-[" ++ p ++ "]")%string)
                 end
             | K_NAME => Ok (Some "[NAME]")
             end;
     match u with Some t => Ok (t ++ "??")%string | None => Ok "??" end).
Proof.
  intros [P E D M N]. unfold gloss. rewrite no_entry by (assumption || lia).
  fold (gloss dict cult f). rewrite unmatched_none by assumption. cbn [obind]. unfold translate_unknown.
  apply has_not in N. rewrite N. destruct (kind cult w); reflexivity.
Qed.
Lemma unknown_gloss dict cult w place ctx f r : unlisted dict w place ctx ->
  MorfModel.morf_scan cult (list_ascii_of_string w) = Ok r ->
  (In (MorfModel.sc_type r) [MorfModel.MT_GISMU; MorfModel.MT_FUIVLA4] -> gloss dict cult (S f) w place ctx = Ok "???") /\
  (MorfModel.sc_type r = MorfModel.MT_CMENE -> gloss dict cult (S f) w place ctx = Ok "[NAME]??") /\
  (In (MorfModel.sc_type r) [MorfModel.MT_BOGUS; MorfModel.MT_BAD_UPPERCASE; MorfModel.MT_CMAVOS] -> gloss dict cult (S f) w place ctx = Ok "??").
Proof.
  intros U R. rewrite unlisted_gloss by exact U. unfold kind. rewrite R. cbn [obind].
  split; [|split]; intro H; cbn [In] in H; destruct (MorfModel.sc_type r);
    try (exfalso; repeat (destruct H as [H|H]; [discriminate H|]); exact H); try discriminate H; reflexivity.
Qed.

Lemma substring_0 p : forall r, substring 0 (String.length p) (p ++ r)%string = p.
Proof. induction p as [|c p IH]; intro r; cbn [String.length substring append]; [destruct r; reflexivity|]. now rewrite IH. Qed.
Lemma substring_long r : forall n, String.length r <= n -> substring 0 n r = r.
Proof. induction r as [|c r IH]; intros n L; destruct n; cbn [String.length] in L; try lia; cbn [substring]; [reflexivity|reflexivity|]. rewrite IH; [reflexivity|lia]. Qed.
Lemma substring_rest p : forall r n, String.length r <= n -> substring (String.length p) n (p ++ r)%string = r.
Proof. induction p as [|c p IH]; intros r n L; cbn [String.length substring append]; [apply substring_long; exact L|apply IH; exact L]. Qed.
Lemma sapp_length a b : String.length (a ++ b)%string = String.length a + String.length b.
Proof. induction a as [|c a IH]; cbn [String.length append]; [reflexivity|]. rewrite IH. lia. Qed.
Lemma skip_commas n c : all_commas c -> forall r, after_hyphen n (c ++ r)%string = after_hyphen n r.
Proof.
  unfold all_commas. induction c as [|a c IH]; intros H r; [reflexivity|]. cbn [list_ascii_of_string] in H.
  inversion H as [|? ? E H']; subst. cbn [append after_hyphen]. rewrite Ascii.eqb_refl. apply IH. exact H'.
Qed.
Lemma after_hyphen_ok c1 hy c2 t r : all_commas c1 -> all_commas c2 -> hy <> ","%char -> t <> ","%char ->
  after_hyphen 0 (c1 ++ String hy (c2 ++ String t r))%string = Some (String t r).
Proof.
  intros A B H T. rewrite skip_commas by exact A. cbn [after_hyphen]. destruct (Ascii.eqb_spec hy ","); [contradiction|].
  rewrite skip_commas by exact B. cbn [after_hyphen]. destruct (Ascii.eqb_spec t ","); [contradiction|]. reflexivity.
Qed.
Lemma no_commas_ok s s' : comma_free s s' -> no_commas s = s'.
Proof.
  unfold comma_free. revert s'. induction s as [|c s IH]; intros s' H.
  - destruct s'; [reflexivity|discriminate H].
  - cbn [list_ascii_of_string filter no_commas] in *. destruct (Ascii.eqb c ","); cbn [negb] in H; [auto|].
    destruct s' as [|d s']; [discriminate H|]. cbn [list_ascii_of_string] in H. injection H as <- H. now rewrite (IH s').
Qed.
Lemma borrowed_gloss dict cult w place ctx f r p p' c1 hy c2 t tail ps gs : unlisted dict w place ctx ->
  MorfModel.morf_scan cult (list_ascii_of_string w) = Ok r ->
  In (MorfModel.sc_type r) [MorfModel.MT_FUIVLA3; MorfModel.MT_FUIVLA3_CVC; MorfModel.MT_FUIVLA3X; MorfModel.MT_FUIVLA3X_CVC] ->
  MorfModel.sc_hyph r = Some (String.length p) ->
  w = (p ++ c1 ++ String hy (c2 ++ String t tail))%string -> all_commas c1 -> all_commas c2 -> hy <> ","%char -> t <> ","%char ->
  comma_free p p' -> canon p' = Ok (Some (spelled ps)) -> Forall good_part ps -> List.length ps <= 32 ->
  glosses_in ctx (gloss dict cult f) ps 1 gs ->
  gloss dict cult (S f) w place ctx = Ok (String.concat "-" gs ++ "-[" ++ String t tail ++ "]??")%string.
Proof.
  intros U R T H E A B HY TT CF C G L GS. rewrite unlisted_gloss by exact U.
  assert (kind cult w = Ok (K_FUIVLA3 (String.length p))) as ->.
  { unfold kind. rewrite R. cbn [obind]. rewrite H. cbn [In] in T. destruct (MorfModel.sc_type r);
    try reflexivity; exfalso; repeat (destruct T as [T|T]; [discriminate T|]); exact T. }
  cbn [obind]. rewrite E. rewrite substring_0, substring_rest by (rewrite (sapp_length p); lia).
  rewrite after_hyphen_ok by assumption. rewrite (no_commas_ok _ _ CF). unfold translate_fuivla_prefix. rewrite C. cbn [obind].
  destruct (split_spelled ps G L) as (cs & -> & F). cbn [obind].
  unfold gloss in *. rewrite (glue_ok dict canon (kind cult) ctx f ps cs 1 gs F GS) by lia. cbn [obind].
  rewrite !sapp_assoc. reflexivity.
Qed.
