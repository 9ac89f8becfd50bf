(* Proofs for C85: whole descriptions. *)
From Coq Require Import Ascii String List NArith Arith Bool Lia.
From Verif Require Import FlexModel FlexSpec FlexProofs FlexProofs2.
Import ListNotations.
Open Scope string_scope.
Open Scope list_scope.

Lemma line_app : forall l r, (line_of l ++ r = l ++ String nl r)%string.
Proof. intros. unfold line_of. rewrite app_assoc_s. reflexivity. Qed.
Lemma line_len : forall l, String.length (line_of l) = S (String.length l).
Proof. intros. unfold line_of. rewrite len_app. cbn [String.length]. lia. Qed.
Lemma line_ends_true : forall b l, ends_line b (line_of l) = true.
Proof. intros. unfold line_of. rewrite ends_app. reflexivity. Qed.
Lemma step_f : forall f m bol line t r n a, t <> "" -> n = String.length t -> String.length (t ++ r) < f ->
  pick (rules m bol) (t ++ r) None = Some (n, a) -> exists g, String.length r < g /\
  scan f m bol line (t ++ r) =
    match a with
    | A_tok k => option_map (fun '(ts, o) => ((k, line) :: ts, o)) (scan g m (ends_line bol t) line r)
    | A_string => option_map (fun '(ts, o) => ((T_STRING t, line) :: ts, o)) (scan g m (ends_line bol t) line r)
    | A_skip => scan g m (ends_line bol t) line r
    | A_line => scan g m (ends_line bol t) (line + 1) r
    | A_begin m' => scan g m' (ends_line bol t) line r
    | A_copy => option_map (fun '(ts, o) => (ts, (t ++ o)%string)) (scan g m (ends_line bol t) line r)
    | A_copy_line => option_map (fun '(ts, o) => (ts, (t ++ o)%string)) (scan g m (ends_line bol t) (line + 1) r)
    end.
Proof.
  intros f m bol line t r n a N L F P. destruct f as [|g]; [lia|]. exists g. split; [|now apply (step g m bol line t r n a)].
  rewrite len_app in F. destruct t; [congruence|]. cbn [String.length] in F. lia.
Qed.
Definition code_line (l : string) : Prop := lacks newline l /\ forall c, all_of space_or_tab c -> l <> ("%}" ++ c)%string.
Lemma scan_code : forall b r ts o ls n, all_of space_or_tab b -> Forall code_line ls ->
  (forall f, String.length r < f -> scan f INITIAL true (n + N.of_nat (List.length ls)) r = Some (ts, o)) ->
  forall f, String.length (String.concat "" (map line_of ls) ++ line_of ("%}" ++ b) ++ r) < f ->
  scan f PASSTHRU true n (String.concat "" (map line_of ls) ++ line_of ("%}" ++ b) ++ r) =
    Some (ts, (String.concat "" (map line_of ls) ++ o)%string).
Proof.
  intros b r ts o. induction ls as [|l ls IH]; intros n B F H f L.
  - change (String.concat "" (map line_of []) ++ line_of ("%}" ++ b) ++ r)%string with (line_of ("%}" ++ b) ++ r)%string in *.
    change (String.concat "" (map line_of []) ++ o)%string with o.
    destruct (step_f f PASSTHRU true n (line_of ("%}" ++ b)) r _ (A_begin INITIAL) ltac:(discriminate) eq_refl L) as [g [G E]].
    { rewrite line_app, app_assoc_s. now apply pick_close. }
    rewrite E, line_ends_true. rewrite <- (H g G). f_equal. cbn [List.length]. lia.
  - inversion F as [|? ? [F1 F2] F3]; subst. cbn [map] in *. rewrite concat_cons in *. rewrite !app_assoc_s in *.
    set (t := (String.concat "" (map line_of ls) ++ line_of ("%}" ++ b) ++ r)%string) in *.
    rewrite line_app in *.
    assert (END : forall bol f', String.length (String nl t) < f' ->
       scan f' PASSTHRU bol n (String nl t) = Some (ts, (String nl (String.concat "" (map line_of ls) ++ o))%string)).
    { intros bol f' L'. destruct (step_f f' PASSTHRU bol n (String nl "") t 1 A_copy_line ltac:(discriminate) eq_refl L' (pick_copy_line bol t)) as [g [G E]].
      change (String nl "" ++ t)%string with (String nl t) in E. rewrite E.
      change (ends_line bol (String nl "")) with true. unfold t. rewrite (IH (n + 1)%N B F3).
      - reflexivity.
      - intros f0 L0. rewrite <- (H f0 L0). f_equal. cbn [List.length]. lia.
      - exact G. }
    destruct l as [|c l].
    + cbn [append] in *. now apply END.
    + destruct (step_f f PASSTHRU true n (String c l) (String nl t) _ A_copy ltac:(discriminate) eq_refl L) as [g [G E]].
      { now apply pick_copy. }
      rewrite E, (END _ g G). cbn [option_map]. rewrite line_app. reflexivity.
Qed.
Lemma word_lacks : forall w, all_of name_char w -> lacks newline w.
Proof.
  intros w A I. unfold all_of in A. rewrite Forall_forall in A. apply A in I. apply name_char_word in I. discriminate.
Qed.
Lemma sign_ends : forall s k b, sign_token s k -> s <> "" /\ ends_line b s = false.
Proof.
  intros s k b H. unfold sign_token in H. cbn [In] in H.
  repeat (destruct H as [H|H]; [injection H as <- <-; split; [discriminate|reflexivity]|]). destruct H.
Qed.
Lemma text_cons : forall p l, text (p :: l) = (text1 p ++ text l)%string.
Proof. intros. unfold text. cbn [map]. apply concat_cons. Qed.
Lemma head_stops : forall b l, laid_out b l ->
  ((forall w l', l = word w :: l' -> False) -> stops word_char (text l)) /\
  ((forall s l', l = spaces s :: l' -> False) -> stops blank (text l)).
Proof.
  intros b l H. inversion H as [|b' p l' S X1 X2 X3 X4]; subst; [split; intros; exact I|]. rewrite text_cons.
  destruct p as [w|s|s| |s|s|a c ls]; cbn [text1 sound] in *.
  - split; [intro F; elim (F w l' eq_refl)|]. intros _. destruct S as [N A]. destruct w as [|c w]; [congruence|].
    unfold all_of in A. cbn [list_ascii_of_string] in A. inversion A as [|? ? C _]; subst. apply name_char_word in C.
    cbn. destruct (blank c) eqn:E; [|reflexivity]. apply blank_ok in E. destruct E; subst; discriminate.
  - destruct S as [t S]. unfold sign_token in S. cbn [In] in S.
    repeat (destruct S as [S|S]; [injection S as <- <-; split; reflexivity|]). destruct S.
  - split; [|intro F; elim (F s l' eq_refl)]. intros _. destruct S as [N A]. destruct s as [|c s]; [congruence|].
    unfold all_of in A. cbn [list_ascii_of_string] in A. inversion A as [|? ? C _]; subst. destruct C; subst; reflexivity.
  - split; reflexivity.
  - split; reflexivity.
  - split; reflexivity.
  - split; reflexivity.
Qed.
Lemma scan_pieces : forall n l ts o, reads n l ts o -> forall b, laid_out b l -> forall f, String.length (text l) < f ->
  scan f INITIAL b n (text l) = Some (ts, o).
Proof.
  induction 1 as [n|n w k l ts o K R IH|n s k l ts o K R IH|n s l ts o R IH|n l ts o R IH|n s l ts o R IH|n s l ts o R IH|n a b ls l ts o R IH];
    intros bol LO f L.
  - destruct f; [lia|reflexivity].
  - inversion LO as [|b' p l' S1 S2 S3 S4 S5]; subst. destruct S1 as [N A]. rewrite text_cons in *. cbn [text1] in *.
    assert (ST : stops word_char (text l)) by (apply (proj1 (head_stops _ _ S5)); intros w' l0 E; exact (S3 w w' l0 eq_refl E)).
    destruct (step_f f INITIAL bol n w (text l) _ _ N eq_refl L (pick_word w (text l) bol N (all_span _ _ _ name_char_word A) ST)) as [g [G E]].
    rewrite E. rewrite (ends_false w bol (word_lacks w A)). rewrite (word_named w k K). unfold word_act, word_token.
    destruct w as [|c w]; [congruence|]. rewrite (IH _ S5 g G). destruct (look (String c w) keywords); reflexivity.
  - inversion LO as [|b' p l' S1 S2 S3 S4 S5]; subst. rewrite text_cons in *. cbn [text1] in *.
    destruct (sign_ends s k bol K) as [N E1].
    destruct (step_f f INITIAL bol n s (text l) _ _ N eq_refl L (pick_sign s k (text l) bol K)) as [g [G E]].
    rewrite E, E1, (IH _ S5 g G). reflexivity.
  - inversion LO as [|b' p l' S1 S2 S3 S4 S5]; subst. destruct S1 as [N A]. rewrite text_cons in *. cbn [text1] in *.
    assert (ST : stops blank (text l)) by (apply (proj2 (head_stops _ _ S5)); intros w' l0 E; exact (S4 s w' l0 eq_refl E)).
    destruct (step_f f INITIAL bol n s (text l) _ _ N eq_refl L (pick_spaces s (text l) bol N A ST)) as [g [G E]].
    rewrite E. rewrite (ends_false s bol (space_not_nl s A)). destruct s as [|c s]; [congruence|]. exact (IH _ S5 g G).
  - inversion LO as [|b' p l' S1 S2 S3 S4 S5]; subst. rewrite text_cons in *. cbn [text1] in *.
    destruct (step_f f INITIAL bol n (String nl "") (text l) 1 A_line ltac:(discriminate) eq_refl L (pick_newline (text l) bol)) as [g [G E]].
    change (String newline "" ++ text l)%string with (String nl "" ++ text l)%string. rewrite E. exact (IH _ S5 g G).
  - inversion LO as [|b' p l' S1 S2 S3 S4 S5]; subst. cbn [sound] in S1. rewrite text_cons in *. cbn [text1] in *.
    assert (Q : (("#" ++ line_of s) ++ text l = String "#" s ++ String nl (text l))%string)
      by (rewrite app_assoc_s, line_app; reflexivity).
    rewrite Q in *.
    destruct (step_f f INITIAL bol n (String "#" s) (String nl (text l)) _ A_skip ltac:(discriminate) eq_refl L (pick_remark s (text l) bol S1)) as [g [G E]].
    rewrite E.
    destruct (step_f g INITIAL (ends_line bol (String "#" s)) n (String nl "") (text l) 1 A_line ltac:(discriminate) eq_refl G (pick_newline (text l) _)) as [g2 [G2 E2]].
    change (String nl "" ++ text l)%string with (String nl (text l)) in E2. rewrite E2. exact (IH _ S5 g2 G2).
  - inversion LO as [|b' p l' S1 S2 S3 S4 S5]; subst. destruct S1 as [N A]. rewrite text_cons in *. cbn [text1] in *.
    assert (Q : (String """" (s ++ String """" "") ++ text l = String quote "" ++ s ++ String quote (text l))%string).
    { change (String """" (s ++ String """" "") ++ text l)%string with (String quote ((s ++ String quote "") ++ text l)).
      rewrite app_assoc_s. reflexivity. }
    rewrite Q in *.
    destruct (step_f f INITIAL bol n (String quote "") (s ++ String quote (text l)) 1 _ ltac:(discriminate) eq_refl L (pick_quote _ bol)) as [g [G E]].
    rewrite E. change (ends_line bol (String quote "")) with false.
    assert (P : pick (rules STR false) (s ++ String quote (text l)) None = Some (String.length s, A_string)).
    { cbn [rules]. rewrite pick_cons.
      assert (X : lit (String quote "") (s ++ String quote (text l))%string = None).
      { destruct s as [|c s]; [congruence|]. unfold lit. change (String c s ++ String quote (text l))%string with (String c (s ++ String quote (text l))).
        cbn [prefix]. destruct (ascii_dec quote c); [subst; elim A; now left|reflexivity]. }
      rewrite X, pick_cons. unfold some.
      rewrite (span_app (fun c => negb (Ascii.eqb c quote)) s (String quote (text l)) (lacks_span _ _ A)); [|reflexivity].
      destruct s; [congruence|reflexivity]. }
    destruct (step_f g STR false n s (String quote (text l)) _ _ N eq_refl G P) as [g2 [G2 E2]]. rewrite E2.
    assert (P3 : forall b, pick (rules STR b) (String quote (text l)) None = Some (1, A_begin INITIAL)).
    { intro b. cbn [rules]. rewrite pick_cons.
      assert (X : lit (String quote "") (String quote (text l)) = Some 1) by (unfold lit; destruct (text l); reflexivity).
      rewrite X, pick_cons. reflexivity. }
    destruct (step_f g2 STR (ends_line false s) n (String quote "") (text l) 1 _ ltac:(discriminate) eq_refl G2 (P3 _)) as [g3 [G3 E3]].
    change (String quote "" ++ text l)%string with (String quote (text l)) in E3. rewrite E3.
    change (ends_line (ends_line false s) (String quote "")) with false. rewrite (IH _ S5 g3 G3). reflexivity.
  - inversion LO as [|b' p l' S1 S2 S3 S4 S5]; subst. destruct S1 as [A [B F]]. specialize (S2 a b ls eq_refl). subst bol.
    rewrite text_cons in *. cbn [text1] in *. rewrite !app_assoc_s in *.
    destruct (step_f f INITIAL true n (line_of ("%{" ++ a)) (String.concat "" (map line_of ls) ++ line_of ("%}" ++ b) ++ text l) _ (A_begin PASSTHRU) ltac:(discriminate) eq_refl L) as [g [G E]].
    { rewrite line_app, app_assoc_s. now apply pick_open. }
    rewrite E, line_ends_true. apply (scan_code b (text l) ts o ls n B F); [|exact G].
    intros f' L'. exact (IH _ S5 f' L').
Qed.
Lemma lex_pieces : forall l ts o, laid_out true l -> reads 1 l ts o -> lex (text l) = Some (ts, o).
Proof. intros l ts o LO R. unfold lex. apply (scan_pieces _ _ _ _ R _ LO). lia. Qed.
Lemma reads_some : forall l b n, laid_out b l -> exists ts o, reads n l ts o.
Proof.
  induction l as [|p l IH]; intros b n H; [do 2 eexists; constructor|]. inversion H as [|b' p' l' S X1 X2 X3 T]; subst.
  destruct p as [w|s|s| |s|s|a c ls]; cbn [sound] in S.
  - destruct (IH _ n T) as [ts [o R]]. destruct (every_named w) as [k K]. do 2 eexists. econstructor; eassumption.
  - destruct (IH _ n T) as [ts [o R]]. destruct S as [t S]. do 2 eexists. econstructor; eassumption.
  - destruct (IH _ n T) as [ts [o R]]. do 2 eexists. constructor; eassumption.
  - destruct (IH _ (n + 1)%N T) as [ts [o R]]. do 2 eexists. econstructor; eassumption.
  - destruct (IH _ (n + 1)%N T) as [ts [o R]]. do 2 eexists. econstructor; eassumption.
  - destruct (IH _ n T) as [ts [o R]]. do 2 eexists. econstructor; eassumption.
  - destruct (IH _ (n + N.of_nat (List.length ls))%N T) as [ts [o R]]. do 2 eexists. econstructor; eassumption.
Qed.
(* every text is scanned to its end *)
Lemma pick_pos : forall rs s b n a, (forall p x m, In (p, x) rs -> p s = Some m -> 0 < m) ->
  (forall m x, b = Some (m, x) -> 0 < m) -> pick rs s b = Some (n, a) -> 0 < n.
Proof.
  induction rs as [|[p x] rs IH]; intros s b n a H B E; [exact (B n a E)|]. rewrite pick_cons in E.
  eapply IH; [intros; eapply H; [right|]; eassumption| |exact E]. intros m y Q.
  destruct (p s) as [k|] eqn:K; [|exact (B m y Q)]. pose proof (H p x k (or_introl eq_refl) K).
  destruct b as [[m0 y0]|]; [|injection Q as <- <-; assumption]. destruct (m0 <? k)%nat; [injection Q as <- <-; assumption|exact (B m y Q)].
Qed.
Lemma lit_pos : forall l s m, lit l s = Some m -> l <> "" -> 0 < m.
Proof. unfold lit. intros l s m H N. destruct (prefix l s); [|discriminate]. injection H as <-. destruct l; [congruence|cbn; lia]. Qed.
Lemma some_pos : forall p s m, some p s = Some m -> 0 < m.
Proof. unfold some. intros p s m H. destruct (span p s); [discriminate|]. injection H as <-. lia. Qed.
Lemma delimiter_pos : forall l b s m, delimiter l b s = Some m -> 0 < m.
Proof.
  unfold delimiter. intros l b s m H. destruct (b && prefix l s); [|discriminate].
  destruct (after _ _); [discriminate|]. destruct (Ascii.eqb _ _); [|discriminate]. injection H as <-. lia.
Qed.
Lemma comment_pos : forall s m, comment s = Some m -> 0 < m.
Proof.
  unfold comment. intros [|c s] m H; [discriminate|]. destruct (Ascii.eqb c "#"); [|discriminate].
  cbv zeta in H. destruct (after _ _); [discriminate|]. injection H as <-. lia.
Qed.
Lemma fixed_pos : forall ks, forallb (fun x => negb (String.eqb (fst x) "")) ks = true ->
  forall p x s m, In (p, x) (fixed ks) -> p s = Some m -> 0 < m.
Proof.
  intros ks F p x s m I E. unfold fixed in I. apply in_map_iff in I. destruct I as [[l t] [Q I]]. injection Q as <- <-.
  rewrite forallb_forall in F. specialize (F _ I). cbn [fst] in F, E. apply (lit_pos _ _ _ E). intros ->. discriminate.
Qed.
Lemma rules_pos : forall md b p x s m, In (p, x) (rules md b) -> p s = Some m -> 0 < m.
Proof.
  intros md b p x s m I E. destruct md; cbn [rules] in I.
  - apply in_app_iff in I. destruct I as [I|I]; [exact (fixed_pos keywords eq_refl p x s m I E)|].
    apply in_app_iff in I. destruct I as [[I|[I|[]]]|I].
    + injection I as <- <-. exact (some_pos _ _ _ E).
    + injection I as <- <-. exact (comment_pos _ _ E).
    + apply in_app_iff in I. destruct I as [I|[I|[I|[I|[I|[]]]]]]; [exact (fixed_pos operators eq_refl p x s m I E)|..]; injection I as <- <-.
      * apply (lit_pos _ _ _ E). discriminate.
      * exact (some_pos _ _ _ E).
      * exact (delimiter_pos _ _ _ _ E).
      * apply (lit_pos _ _ _ E). discriminate.
  - destruct I as [I|[I|[I|[]]]]; injection I as <- <-; [exact (delimiter_pos _ _ _ _ E)|apply (lit_pos _ _ _ E); discriminate|exact (some_pos _ _ _ E)].
  - destruct I as [I|[I|[]]]; injection I as <- <-; [apply (lit_pos _ _ _ E); discriminate|exact (some_pos _ _ _ E)].
Qed.
Lemma after_short : forall n s, String.length (after n s) = String.length s - n.
Proof. induction n; intro s; [cbn; lia|]. destruct s; [reflexivity|]. cbn [after String.length]. rewrite IHn. lia. Qed.
Lemma scan_total : forall f m b n s, String.length s < f -> exists r, scan f m b n s = Some r.
Proof.
  induction f as [|f IH]; intros m b n s L; [lia|]. cbn [scan]. destruct s as [|c s]; [eexists; reflexivity|].
  destruct (pick (rules m b) (String c s) None) as [[k a]|] eqn:P.
  - assert (K : 0 < k).
    { apply (pick_pos (rules m b) (String c s) None k a); [intros; eapply rules_pos; eassumption|discriminate|exact P]. }
    assert (R : forall m' b' n', exists r, scan f m' b' n' (after k (String c s)) = Some r).
    { intros. apply IH. rewrite after_short. cbn [String.length] in *. lia. }
    cbv zeta.
    assert (O : forall (g : scanned -> scanned) x, (exists r, x = Some r) -> exists r, option_map g x = Some r)
      by (intros g x [r ->]; eexists; reflexivity).
    destruct a; try apply O; apply R.
  - assert (R : exists r, scan f m (Ascii.eqb c nl) n s = Some r) by (apply IH; cbn [String.length] in L; lia).
    destruct R as [r ->]. eexists. reflexivity.
Qed.
Lemma lex_total : forall s, exists r, lex s = Some r.
Proof. intro s. apply scan_total. lia. Qed.
