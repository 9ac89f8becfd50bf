(* The plain text driver. *)
From Coq Require Import String Ascii List NArith ZArith Bool Arith Lia.
From Verif Require Import Base TreeModel OutModel DrvModel DrvSpec.
Import ListNotations.
Local Open Scope string_scope.

Lemma sapp_assoc (a b c : string) : (a ++ b) ++ c = a ++ b ++ c.
Proof. induction a as [|x a IH]; cbn [append]; [reflexivity|]. now rewrite IH. Qed.
Lemma sapp_nil (a : string) : a ++ "" = a.
Proof. induction a as [|x a IH]; cbn [append]; [reflexivity|]. now rewrite IH. Qed.
Lemma slen_app (a b : string) : String.length (a ++ b) = String.length a + String.length b.
Proof. induction a as [|x a IH]; cbn [append String.length]; [reflexivity|]. now rewrite IH. Qed.

Definition none (g : string) : bool := match g with "" => true | _ => false end.
Lemma none_app g h : none (g ++ h) = none g && none h.
Proof. now destruct g. Qed.

Lemma blank_app gaps a b : blank gaps a -> blank gaps b -> blank gaps (a ++ b).
Proof. induction 1 as [|g s I B IH]; intros H; [exact H|]. rewrite sapp_assoc. constructor; auto. Qed.
Lemma blank_one gaps g : In g gaps -> blank gaps g.
Proof. intros I. rewrite <- (sapp_nil g). constructor; [exact I|constructor]. Qed.

Lemma ts_gap gaps b g l s : blank gaps g -> typeset gaps (b && none g) l s -> typeset gaps b l (g ++ s).
Proof.
  intros B H. inversion H as [b' s' B'|b' g' i l' s' B' D T]; subst.
  - constructor. now apply blank_app.
  - rewrite <- sapp_assoc. constructor; [now apply blank_app| |exact T].
    intros Hb M. destruct g as [|c g]; [|discriminate]. cbn [append]. apply D; [now rewrite Hb|exact M].
Qed.
Lemma ts_one gaps b g i l s : blank gaps g -> (b = true -> is_mark i = false -> none g = false) ->
  typeset gaps (negb (is_mark i)) l s -> typeset gaps b (i :: l) (g ++ text_of i ++ s).
Proof. intros B D T. constructor; [exact B| |exact T]. intros Hb M E. specialize (D Hb M). subst g. discriminate D. Qed.
Lemma ts_end gaps b l s g : blank gaps g -> typeset gaps b l s -> typeset gaps b l (s ++ g).
Proof.
  intros B H. induction H as [b s B'|b g' i l s B' D T IH]; [constructor; now apply blank_app|].
  rewrite !sapp_assoc. constructor; auto.
Qed.
Lemma ts_more gaps b l s : typeset gaps true l s -> typeset gaps b l s.
Proof. intros H. inversion H; subst; constructor; auto. Qed.

(* a gap is written after a text or a closing bracket *)
Definition after (d : drv) : bool := match d_state d with ST_TEXT | ST_CLOSE => true | _ => false end.

Lemma special_sign a o c s : sign_of a o c s = if special s then
  Some (if String.eqb s "$LEFTARROW" then a else if String.eqb s "$OPENQUOTE" then o else if String.eqb s "$CLOSEQUOTE" then c else "") else None.
Proof.
  destruct s as [|x s]; [reflexivity|]. destruct (Ascii.eqb x "$") eqn:E.
  - apply Ascii.eqb_eq in E. subst x. reflexivity.
  - assert (forall A (y z : A), (match x with "$"%char => y | _ => z end) = z) as M.
    { intros. destruct x as [[] [] [] [] [] [] [] []]; try reflexivity. discriminate E. }
    cbn [sign_of special]. now rewrite !M.
Qed.

Lemma open_none (e bt : string) d : (none e = false \/ none bt = (negb (after d))) -> after d = true -> none (e ++ bt) = false.
Proof. intros [H|H] A; rewrite none_app, H; [reflexivity|]. now rewrite A, andb_false_r. Qed.

Lemma clear_spec sep d o d' : clear_eols sep d = (o, d') ->
  d_first d' = d_first d /\ ((o = "" /\ d' = d) \/ (exists n, o = sep (S n)) /\ d_state d' = ST_OPEN).
Proof.
  unfold clear_eols. destruct (d_eols d) as [|n]; injection 1 as <- <-; split; try reflexivity; [now left|].
  right. split; [now exists n|reflexivity].
Qed.

Section TEXT.
  Notation ts := (typeset plain_gaps).
  Lemma g_sp : blank plain_gaps " ". Proof. apply blank_one. now left. Qed.
  Lemma g_nl : blank plain_gaps nl. Proof. apply blank_one. right. now left. Qed.
  Lemma g_before d : blank plain_gaps (before_text " " d).
  Proof. unfold before_text. destruct (d_state d); try constructor; apply g_sp. Qed.
  Lemma g_close d : blank plain_gaps (before_close d).
  Proof. unfold before_close. destruct (d_state d); try constructor; apply g_sp. Qed.
  Lemma n_before g d : none g = false -> none (before_text g d) = negb (after d).
  Proof. intros N. unfold before_text, after. destruct (d_state d); auto. Qed.

  Lemma text_run : forall cs d b, (b = true -> after d = true) ->
    exists o d', run text_step d cs = Ok (o, d') /\ ts b (plain_items (d_first d) cs) o.
  Proof.
    induction cs as [|c cs IH]; intros d b H; [exists "", d; split; [reflexivity|repeat constructor]|].
    cbn [run].
    assert (GO : forall o1 d1 b1 (P : string -> Prop), text_step d c = Ok (o1, d1) -> (b1 = true -> after d1 = true) ->
       (forall o, ts b1 (plain_items (d_first d1) cs) o -> ts b (plain_items (d_first d) (c :: cs)) (o1 ++ o)) ->
       exists o d', (do (o, d) <- text_step d c; do (o', d) <- run text_step d cs; Ok (o ++ o', d)) = Ok (o, d') /\ ts b (plain_items (d_first d) (c :: cs)) o).
    { intros o1 d1 b1 _ E A K. destruct (IH d1 b1 A) as (o & d' & R & T). exists (o1 ++ o), d'. split; [|now apply K].
      rewrite E. cbn [obind]. rewrite R. reflexivity. }
    destruct c as [br n|br n|n|s|s| | | |bv pl tr brac|s].
    - destruct (clear_eols text_eols d) as [e d2] eqn:C. destruct (clear_spec _ _ _ _ C) as [F X].
      assert (G : blank plain_gaps (e ++ before_text " " d2)).
      { apply blank_app; [|apply g_before]. destruct X as [[-> _]|[[k ->] _]]; [constructor|]. apply blank_app; apply g_nl. }
      assert (N : b = true -> none (e ++ before_text " " d2) = false).
      { intros Hb. specialize (H Hb). rewrite none_app, n_before by reflexivity. destruct X as [[-> ->]|[[k ->] _]]; [now rewrite H|reflexivity]. }
      apply (GO ((e ++ before_text " " d2) ++ text_open br) (set_state d2 ST_OPEN) false (fun _ => True)); [cbn [text_step]; now rewrite C, sapp_assoc|discriminate|].
      intros o T. cbn [plain_items set_state d_first] in *. rewrite F in T. rewrite sapp_assoc.
      destruct br; cbn [signs text_open List.app append]; try (match goal with |- typeset _ _ (Mark ?m :: _) _ => apply (ts_one _ _ _ (Mark m)) end; [exact G|intros _ M; discriminate M|exact T]).
      apply ts_gap; [exact G|]. destruct b; [now rewrite N|exact T].
    - apply (GO (before_close d ++ text_close br) (set_state d ST_CLOSE) (b && none (before_close d) && (match br with BR_NONE => true | _ => false end)) (fun _ => True)); [reflexivity|reflexivity|].
      intros o T. cbn [plain_items set_state d_first] in *. rewrite sapp_assoc.
      destruct br; cbn [signs text_close List.app append]; rewrite ?andb_false_r, ?andb_true_r in T;
        try (match goal with |- typeset _ _ (Mark ?m :: _) _ => apply (ts_one _ _ _ (Mark m)) end; [apply g_close|intros _ M; discriminate M|exact T]).
      apply ts_gap; [apply g_close|exact T].
    - apply (GO "" (set_eols d n) b (fun _ => True)); [reflexivity|exact H|]. intros o T. exact T.
    - apply (GO (before_text " " d ++ s) (set_state d ST_TEXT) true (fun _ => True)); [reflexivity|reflexivity|].
      intros o T. rewrite sapp_assoc. apply (ts_one _ _ _ (Word s)); [apply g_before| |exact T].
      intros Hb _. rewrite n_before by reflexivity. now rewrite (H Hb).
    - apply (GO (before_text " " d ++ (if special s then text_special s else "/" ++ s ++ "/")) (set_state d ST_TEXT) true (fun _ => True)); [reflexivity|reflexivity|].
      intros o T. cbn [plain_items]. rewrite special_sign.
      assert ((if special s then text_special s else "/" ++ s ++ "/") =
        match (if special s then Some (text_special s) else None) with Some x => x | None => "/" ++ s ++ "/" end) as -> by (now destruct (special s)).
      rewrite sapp_assoc. apply (ts_one _ _ _ (Gloss _)); [apply g_before| |exact T].
      intros Hb _. rewrite n_before by reflexivity. now rewrite (H Hb).
    - apply (GO "[" (set_first d true) false (fun _ => True)); [reflexivity|discriminate|].
      intros o T. apply (ts_one _ _ "" (Mark "[")); [constructor|intros _ M; discriminate M|exact T].
    - apply (GO ":]" (set_state d ST_CLOSE) false (fun _ => True)); [reflexivity|discriminate|].
      intros o T. apply (ts_one _ _ "" (Mark ":]")); [constructor|intros _ M; discriminate M|exact T].
    - destruct (d_first d) eqn:F.
      + apply (GO "" (set_first d false) b (fun _ => True)); [cbn [text_step]; unfold unless_first; now rewrite F|exact H|]. intros o T. exact T.
      + apply (GO ", " (set_first d false) false (fun _ => True)); [cbn [text_step]; unfold unless_first; now rewrite F|discriminate|].
        intros o T. apply (ts_one _ _ "" (Mark ", ")); [constructor|intros _ M; discriminate M|exact T].
    - apply (GO (label bv pl tr brac) d false (fun _ => True)); [cbn [text_step]; unfold label; now destruct brac|discriminate|].
      intros o T. apply (ts_one _ _ "" (Mark _)); [constructor|intros _ M; discriminate M|exact T].
    - apply (GO s d false (fun _ => True)); [reflexivity|discriminate|].
      intros o T. apply (ts_one _ _ "" (Mark _)); [constructor|intros _ M; discriminate M|exact T].
  Qed.

  Theorem text_typeset cs : exists out, print_text cs = Ok out /\ ts false (plain_items false cs) out.
  Proof.
    destruct (text_run cs initialise false) as (o & d' & R & T); [discriminate|].
    exists (o ++ nl). split; [unfold print_text, print_with; rewrite R; reflexivity|]. apply ts_end; [apply g_nl|exact T].
  Qed.
End TEXT.

Lemma plain_words : forall cs first, words_of (plain_items first cs) = flat_map (fun c => match c with Loj s => [s] | _ => [] end) cs.
Proof.
  induction cs as [|c cs IH]; intros first; [reflexivity|].
  destruct c as [br n|br n|n|s|s| | | |bv pl tr brac|s]; cbn [plain_items flat_map List.app]; unfold words_of in *; cbn [flat_map List.app]; rewrite ?flat_map_app; rewrite ?IH; try reflexivity.
  - destruct br; cbn [signs flat_map List.app]; reflexivity.
  - destruct br; cbn [signs flat_map List.app]; reflexivity.
  - destruct first; reflexivity.
Qed.

(* the numbers of the brackets do not matter *)
Definition renumber (f : nat -> nat) (c : call) : call :=
  match c with Open b n => Open b (f n) | Close b n => Close b (f n) | _ => c end.
Lemma text_renumber f : forall cs d, run text_step d (map (renumber f) cs) = run text_step d cs.
Proof. induction cs as [|c cs IH]; intros d; [reflexivity|]. destruct c; cbn [map renumber run text_step obind]; try (destruct (clear_eols _ d)); cbn [obind]; now rewrite IH. Qed.
