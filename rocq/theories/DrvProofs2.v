(* The HTML driver. *)
From Coq Require Import String Ascii List NArith ZArith Bool Arith Lia.
From Verif Require Import Base TreeModel OutModel DrvModel DrvSpec DrvProofs.
From Verif Require TransModel.
Import ListNotations.
Local Open Scope string_scope.

Definition reads (v o : string) : Prop := forall rest, seen false (o ++ rest) = v ++ seen false rest.
Lemma reads_app v o v' o' : reads v o -> reads v' o' -> reads (v ++ v') (o ++ o').
Proof. intros A B rest. now rewrite !sapp_assoc, A, B. Qed.
Lemma reads_nil : reads "" "". Proof. now intros rest. Qed.
Lemma reads_harmless s : harmless s = true -> reads s s.
Proof.
  intros H rest. induction s as [|c s IH]; [reflexivity|]. cbn [harmless] in H. apply andb_prop in H. destruct H as [C H].
  cbn [append]. rewrite <- (IH H). clear IH H.
  assert (G : Ascii.eqb c ">" = false) by (destruct (Ascii.eqb c ">"); [rewrite !orb_true_r in C; discriminate C|reflexivity]).
  assert (L : Ascii.eqb c "<" = false) by (destruct (Ascii.eqb c "<"); [rewrite !orb_true_r in C; discriminate C|reflexivity]).
  assert (A : Ascii.eqb c "&" = false) by (destruct (Ascii.eqb c "&"); [discriminate C|reflexivity]).
  cbn [seen]. rewrite L, A. destruct c as [[] [] [] [] [] [] [] []]; try reflexivity; discriminate G.
Qed.

Lemma digits_harmless : forall f n acc, harmless acc = true -> harmless (TransModel.digits f n acc) = true.
Proof.
  induction f as [|f IH]; intros n acc H; [exact H|]. cbn [TransModel.digits].
  assert (K : harmless (String (ascii_of_N (48 + N.modulo n 10)) acc) = true).
  { assert (L : (N.modulo n 10 < 10)%N) by (apply N.mod_lt; discriminate).
    remember (N.modulo n 10) as r eqn:Er. clear Er IH.
    cbn [harmless]. rewrite H, andb_true_r.
    assert (E : (r = 0 \/ r = 1 \/ r = 2 \/ r = 3 \/ r = 4 \/ r = 5 \/ r = 6 \/ r = 7 \/ r = 8 \/ r = 9)%N) by lia.
    repeat (destruct E as [->|E]; [reflexivity|]). subst r. reflexivity. }
  destruct (N.eqb (N.div n 10) 0); [exact K|]. now apply IH.
Qed.
Lemma zdec_harmless n : harmless (TransModel.zdec (Z.of_nat n)) = true.
Proof. destruct n as [|n]; [reflexivity|]. cbn [Z.of_nat TransModel.zdec]. now apply digits_harmless. Qed.
Lemma reads_sub n : reads (TransModel.zdec (Z.of_nat n)) (html_sub n).
Proof.
  unfold html_sub. intros rest. rewrite !sapp_assoc.
  replace (seen false ("<SUB><FONT SIZE=" ++ dq ++ "-3" ++ dq ++ ">" ++ TransModel.zdec (Z.of_nat n) ++ "</FONT></SUB>" ++ rest))
    with (seen false (TransModel.zdec (Z.of_nat n) ++ "</FONT></SUB>" ++ rest)) by reflexivity.
  rewrite (reads_harmless _ (zdec_harmless n)). reflexivity.
Qed.

Lemma htmlsafe_ok : forall s room, harmless s = true -> String.length s < room -> htmlsafe room s = Ok s.
Proof.
  induction s as [|c s IH]; intros room H L; (destruct room as [|r]; [cbn [String.length] in L; lia|]); [reflexivity|].
  cbn [harmless] in H. apply andb_prop in H. destruct H as [C H]. cbn [htmlsafe].
  destruct (Ascii.eqb c "&"); [discriminate C|]. destruct (Ascii.eqb c "<"); [discriminate C|]. destruct (Ascii.eqb c ">"); [discriminate C|].
  cbn [String.length] in L. rewrite IH; [reflexivity|exact H|lia].
Qed.
Lemma make_htmlsafe_ok s : harmless s = true -> short s -> make_htmlsafe s = Ok s.
Proof. intros H L. apply htmlsafe_ok; [exact H|]. unfold short in L. unfold html_room. lia. Qed.

Lemma htmlsafe_bad : forall n room s, room <= n -> harmless s = false -> htmlsafe room s = UB UB_bounds.
Proof.
  induction n as [|n IH]; intros room s L H.
  - assert (room = 0) by lia. subst. reflexivity.
  - destruct room as [|r]; [reflexivity|]. destruct s as [|c s]; [discriminate H|].
    cbn [harmless] in H. cbn [htmlsafe].
    destruct (Ascii.eqb c "&") eqn:A.
    { destruct r as [|[|[|[|[|r]]]]]; try reflexivity. rewrite IH; [reflexivity|lia|]. cbn [harmless]. now rewrite A. }
    destruct (Ascii.eqb c "<") eqn:B.
    { destruct r as [|[|[|[|r]]]]; try reflexivity. rewrite IH; [reflexivity|lia|]. cbn [harmless]. now rewrite A, B. }
    destruct (Ascii.eqb c ">") eqn:D.
    { destruct r as [|[|[|[|r]]]]; try reflexivity. rewrite IH; [reflexivity|lia|]. cbn [harmless]. now rewrite A, B, D. }
    rewrite IH; [reflexivity|lia|exact H].
Qed.
Lemma make_htmlsafe_bad s : harmless s = false -> make_htmlsafe s = UB UB_bounds.
Proof. intros H. exact (htmlsafe_bad _ _ _ (le_n _) H). Qed.

Notation ts := (typeset plain_gaps).
Lemma g_before_nl d : blank plain_gaps (before_text nl d).
Proof. unfold before_text. destruct (d_state d); try constructor; apply g_nl. Qed.
Lemma reads_before g d : harmless g = true -> reads (before_text g d) (before_text g d).
Proof. intros H. unfold before_text. destruct (d_state d); apply reads_harmless; auto. Qed.
Lemma reads_close d : reads (before_close d) (before_close d).
Proof. unfold before_close. destruct (d_state d); apply reads_harmless; reflexivity. Qed.

Lemma reads_open br n : reads (match numbered br n with Some (o, _) => o | None => "" end) (html_open br n).
Proof.
  destruct br; cbn [numbered html_signs signs html_open]; try apply reads_nil;
    intros rest; rewrite !sapp_assoc;
    match goal with |- seen false (?a ++ ?b) = ?x ++ ?y ++ ?z => change (seen false (a ++ b)) with (x ++ seen false b) end;
    now rewrite reads_sub.
Qed.
Lemma reads_closed br n : reads (match numbered br n with Some (_, c) => c | None => "" end) (html_close br n).
Proof.
  destruct br; cbn [numbered html_signs signs html_close]; try apply reads_nil;
    intros rest; rewrite !sapp_assoc;
    match goal with |- seen false (?a ++ ?b) = ?x ++ ?y ++ ?z => change (seen false (a ++ b)) with (x ++ seen false b) end;
    now rewrite reads_sub.
Qed.

Lemma html_run : forall cs d b, Forall html_ok cs -> (b = true -> after d = true) ->
  exists o d' v, run html_step d cs = Ok (o, d') /\ reads v o /\ ts b (html_items (d_first d) cs) v.
Proof.
  induction cs as [|c cs IH]; intros d b F H; [exists "", d, ""; split; [reflexivity|split; [apply reads_nil|repeat constructor]]|].
  inversion F as [|c' cs' OK F']; subst c' cs'. cbn [run].
  assert (GO : forall o1 d1 v1 b1, html_step d c = Ok (o1, d1) -> reads v1 o1 -> (b1 = true -> after d1 = true) ->
     (forall v, ts b1 (html_items (d_first d1) cs) v -> ts b (html_items (d_first d) (c :: cs)) (v1 ++ v)) ->
     exists o d' v, (do (o, d) <- html_step d c; do (o', d) <- run html_step d cs; Ok (o ++ o', d)) = Ok (o, d') /\ reads v o /\
       ts b (html_items (d_first d) (c :: cs)) v).
  { intros o1 d1 v1 b1 E R A K. destruct (IH d1 b1 F' A) as (o & d' & v & R' & Rv & T). exists (o1 ++ o), d', (v1 ++ v). split; [|split; [now apply reads_app|now apply K]].
    rewrite E. cbn [obind]. rewrite R'. reflexivity. }
  destruct c as [br n|br n|n|s|s| | | |bv pl tr brac|s].
  - destruct (clear_eols html_eols d) as [e d2] eqn:C. destruct (clear_spec _ _ _ _ C) as [Fi X].
    set (e' := match e with "" => "" | _ => nl ++ nl end).
    assert (Re : reads e' e). { subst e'. destruct X as [[-> _]|[[k ->] _]]; [apply reads_nil|]. intros rest. reflexivity. }
    assert (G : blank plain_gaps (e' ++ before_text " " d2)).
    { apply blank_app; [|apply g_before]. subst e'. destruct e; [constructor|]. apply blank_app; apply g_nl. }
    assert (N : b = true -> none (e' ++ before_text " " d2) = false).
    { intros Hb. specialize (H Hb). rewrite none_app, n_before by reflexivity. subst e'. destruct X as [[-> ->]|[[k ->] _]]; [now rewrite H|reflexivity]. }
    apply (GO ((e ++ before_text " " d2) ++ html_open br n) (set_state d2 ST_OPEN)
      ((e' ++ before_text " " d2) ++ match numbered br n with Some (o, _) => o | None => "" end) false);
      [cbn [html_step]; now rewrite C, sapp_assoc| |discriminate|].
    { apply reads_app; [apply reads_app; [exact Re|now apply reads_before]|apply reads_open]. }
    intros v T. cbn [html_items set_state d_first] in *. rewrite Fi in T. rewrite sapp_assoc.
    destruct (numbered br n) as [[o c]|]; cbn [List.app append].
    + apply (ts_one _ _ _ (Mark o)); [exact G|intros _ M; discriminate M|exact T].
    + apply ts_gap; [exact G|]. destruct b; [now rewrite N|exact T].
  - apply (GO (before_close d ++ html_close br n) (set_state d ST_CLOSE)
       (before_close d ++ match numbered br n with Some (_, c) => c | None => "" end)
       (b && none (before_close d) && (match numbered br n with None => true | _ => false end))); [reflexivity| |reflexivity|].
    { apply reads_app; [apply reads_close|apply reads_closed]. }
    intros v T. cbn [html_items set_state d_first] in *. rewrite sapp_assoc.
    destruct (numbered br n) as [[o c]|]; cbn [List.app append]; rewrite ?andb_false_r, ?andb_true_r in T.
    + apply (ts_one _ _ _ (Mark c)); [apply g_close|intros _ M; discriminate M|exact T].
    + apply ts_gap; [apply g_close|exact T].
  - apply (GO "" (set_eols d n) "" b); [reflexivity|apply reads_nil|exact H|]. intros v T. exact T.
  - cbn [html_ok] in OK. apply (GO (before_text nl d ++ "<B>" ++ s ++ "</B>") (set_state d ST_TEXT) (before_text nl d ++ s) true); [reflexivity| |reflexivity|].
    { apply reads_app; [now apply reads_before|]. intros rest. rewrite !sapp_assoc. change (seen false ("<B>" ++ s ++ "</B>" ++ rest)) with (seen false (s ++ "</B>" ++ rest)).
      rewrite (reads_harmless _ OK). reflexivity. }
    intros v T. rewrite sapp_assoc. apply (ts_one _ _ _ (Word s)); [apply g_before_nl| |exact T].
    intros Hb _. rewrite n_before by reflexivity. now rewrite (H Hb).
  - destruct OK as [OK Sh]. assert (SP : special s = true \/ special s = false) by (now destruct (special s); [left|right]).
    destruct SP as [SP|SP].
    + apply (GO (before_text nl d ++ html_special s) (set_state d ST_TEXT) (before_text nl d ++
        (if String.eqb s "$LEFTARROW" then "<-" else if String.eqb s "$OPENQUOTE" then dq else if String.eqb s "$CLOSEQUOTE" then dq else "")) true);
        [cbn [html_step]; now rewrite SP| |reflexivity|].
      { apply reads_app; [now apply reads_before|]. unfold html_special. destruct (String.eqb s "$LEFTARROW"); [now intros rest|].
        destruct (String.eqb s "$OPENQUOTE"); [now intros rest|]. destruct (String.eqb s "$CLOSEQUOTE"); [now intros rest|apply reads_nil]. }
      intros v T. cbn [html_items]. rewrite special_sign, SP. rewrite sapp_assoc. apply (ts_one _ _ _ (Gloss _)); [apply g_before_nl| |exact T].
      intros Hb _. rewrite n_before by reflexivity. now rewrite (H Hb).
    + apply (GO (before_text nl d ++ "<I>" ++ s ++ "</I>") (set_state d ST_TEXT) (before_text nl d ++ s) true);
        [cbn [html_step]; now rewrite SP, make_htmlsafe_ok| |reflexivity|].
      { apply reads_app; [now apply reads_before|]. intros rest. rewrite !sapp_assoc. change (seen false ("<I>" ++ s ++ "</I>" ++ rest)) with (seen false (s ++ "</I>" ++ rest)).
        rewrite (reads_harmless _ OK). reflexivity. }
      intros v T. cbn [html_items]. rewrite special_sign, SP. rewrite sapp_assoc. apply (ts_one _ _ _ (Gloss _)); [apply g_before_nl| |exact T].
      intros Hb _. rewrite n_before by reflexivity. now rewrite (H Hb).
  - apply (GO "<U><FONT SIZE=-1>[" (set_first d true) "[" false); [reflexivity|now intros rest|discriminate|].
    intros o T. apply (ts_one _ _ "" (Mark "[")); [constructor|intros _ M; discriminate M|exact T].
  - apply (GO ":] </FONT></U>" d ":] " false); [reflexivity|now intros rest|discriminate|].
    intros o T. apply (ts_one _ _ "" (Mark ":]") _ (" " ++ o)); [constructor|intros _ M; discriminate M|]. apply ts_gap; [apply g_sp|exact T].
  - destruct (d_first d) eqn:Fi.
    + apply (GO "" (set_first d false) "" b); [cbn [html_step]; unfold unless_first; now rewrite Fi|apply reads_nil|exact H|]. intros o T. exact T.
    + apply (GO ", " (set_first d false) ", " false); [cbn [html_step]; unfold unless_first; now rewrite Fi|now intros rest|discriminate|].
      intros o T. apply (ts_one _ _ "" (Mark ", ")); [constructor|intros _ M; discriminate M|exact T].
  - destruct OK as (O1 & O2 & O3 & O4).
    apply (GO (label bv pl tr brac ++ nl) d (label bv pl tr brac ++ nl) false); [|  |discriminate|].
    + cbn [html_step]. rewrite make_htmlsafe_ok by assumption. unfold label. destruct brac; cbn [obind]; now rewrite !sapp_assoc.
    + unfold label. destruct brac; repeat apply reads_app; try (now apply reads_harmless); now intros rest.
    + intros o T. rewrite sapp_assoc. apply (ts_one _ _ "" (Mark _)); [constructor|intros _ M; discriminate M|]. apply ts_gap; [apply g_nl|exact T].
  - apply (GO s d s false); [reflexivity|now apply reads_harmless|discriminate|].
    intros o T. apply (ts_one _ _ "" (Mark _)); [constructor|intros _ M; discriminate M|exact T].
Qed.

Theorem html_typeset cs : Forall html_ok cs ->
  exists out, print_html cs = Ok out /\ ts false (Mark "Lojban translation" :: html_items false cs) (seen false out).
Proof.
  intros F. destruct (html_run cs initialise false F) as (o & d' & v & R & Rv & T); [discriminate|].
  exists (html_prologue ++ o ++ html_epilogue). split; [unfold print_html, print_with; rewrite R; reflexivity|].
  replace (seen false (html_prologue ++ o ++ html_epilogue)) with ((nl ++ nl) ++ "Lojban translation" ++ (nl ++ nl) ++ v ++ nl).
  - apply (ts_one _ _ _ (Mark "Lojban translation")); [apply blank_app; apply g_nl|intros _ M; discriminate M|].
    apply ts_gap; [apply blank_app; apply g_nl|]. apply ts_end; [apply g_nl|exact T].
  - change (seen false (html_prologue ++ o ++ html_epilogue)) with ((nl ++ nl ++ "Lojban translation" ++ nl ++ nl) ++ seen false (o ++ html_epilogue)).
    rewrite Rv. rewrite !sapp_assoc. reflexivity.
Qed.

(* a translation with one of & < > *)
Theorem html_overrun : forall pre s post, Forall html_ok pre -> special s = false -> harmless s = false ->
  print_html (pre ++ Eng s :: post) = UB UB_bounds.
Proof.
  intros pre s post F SP HS. unfold print_html, print_with.
  enough (K : forall d, run html_step d (pre ++ Eng s :: post) = UB UB_bounds) by (now rewrite K).
  induction pre as [|c pre IH]; intros d; cbn [List.app run].
  - cbn [html_step]. rewrite SP, make_htmlsafe_bad by assumption. reflexivity.
  - inversion F as [|c' cs' OK F']; subst c' cs'.
    destruct (html_run [c] d false) as (o & d' & v & R & _); [constructor; [exact OK|constructor]|discriminate|].
    cbn [run] in R. destruct (html_step d c) as [[o1 d1]| | | |]; try discriminate R. cbn [obind]. rewrite IH by exact F'. reflexivity.
Qed.

Lemma html_words : forall cs first, words_of (html_items first cs) = flat_map (fun c => match c with Loj s => [s] | _ => [] end) cs.
Proof.
  induction cs as [|c cs IH]; intros first; [reflexivity|].
  destruct c as [br n|br n|n|s|s| | | |bv pl tr brac|s]; cbn [html_items flat_map List.app]; unfold words_of in *; cbn [flat_map List.app]; rewrite ?flat_map_app; rewrite ?IH; try reflexivity.
  - now destruct (numbered br n) as [[]|].
  - now destruct (numbered br n) as [[]|].
  - destruct first; reflexivity.
Qed.
