(* Proofs for C85: whole descriptions. *)
From Coq Require Import Ascii String List NArith Arith Bool Lia.
From Verif Require Import FlexModel FlexSpec FlexProofs.
Import ListNotations.
Open Scope string_scope.
Open Scope list_scope.

(* ------------------------------------------------------------------ the keywords *)
Definition token_eqb (a b : token) : bool :=
  match a, b with
  | T_STRING x, T_STRING y => String.eqb x y
  | T_STATE, T_STATE | T_ABBREV, T_ABBREV | T_DEFINE, T_DEFINE | T_TOKENS, T_TOKENS | T_PREFIX, T_PREFIX | T_BLOCK, T_BLOCK
  | T_ENDBLOCK, T_ENDBLOCK | T_TYPE, T_TYPE | T_RESULT, T_RESULT | T_EARLYRESULT, T_EARLYRESULT | T_ATTR, T_ATTR
  | T_DEFATTR, T_DEFATTR | T_DEFRESULT, T_DEFRESULT | T_SYMBOL, T_SYMBOL | T_SYMRESULT, T_SYMRESULT
  | T_EARLYSYMRESULT, T_EARLYSYMRESULT | T_ARROW, T_ARROW | T_EQUAL, T_EQUAL | T_PIPE, T_PIPE | T_AND, T_AND | T_NOT, T_NOT
  | T_XOR, T_XOR | T_STAR, T_STAR | T_QUERY, T_QUERY | T_COLON, T_COLON | T_SEMICOLON, T_SEMICOLON | T_LPAREN, T_LPAREN
  | T_RPAREN, T_RPAREN | T_LANGLE, T_LANGLE | T_RANGLE, T_RANGLE | T_COMMA, T_COMMA => true
  | _, _ => false
  end.
Lemma token_eqb_eq : forall a b, token_eqb a b = true -> a = b.
Proof. intros [] []; cbn; intro H; try discriminate; try reflexivity. apply String.eqb_eq in H. now subst. Qed.
Definition spellings (ps : list string) : list string :=
  [String.concat "" ps; capitals (String.concat "" ps); capital (String.concat "" ps); String.concat "" (map capital ps)] ++
  (if list_eq_dec string_dec ps ["early"; "sym"; "result"] then ["EarlySymresult"] else []).
Lemma spellings_ok : forall ps w, spelling ps w <-> In w (spellings ps).
Proof.
  intros ps w. unfold spelling, spellings. rewrite in_app_iff. destruct (list_eq_dec string_dec ps ["early"; "sym"; "result"]) as [E|E].
  - cbn [In]. intuition.
  - cbn [In]. intuition.
Qed.
Lemma look_in : forall w ks k, look w ks = Some k -> In (w, k) ks.
Proof.
  unfold look. induction ks as [|[l t] ks IH]; intros k H; [discriminate|]. cbn [find fst] in H.
  destruct (String.eqb_spec l w); [subst; injection H as <-; now left|right; now apply IH].
Qed.
Lemma look_some : forall w ks k, In (w, k) ks -> exists k', look w ks = Some k'.
Proof.
  unfold look. induction ks as [|[l t] ks IH]; intros k H; [elim H|]. cbn [find fst].
  destruct (String.eqb_spec l w); [eexists; reflexivity|]. destruct H as [H|H]; [congruence|now apply (IH k)].
Qed.
Lemma key_in : forall w k, In (w, k) keywords -> exists ps, In (ps, k) keyword /\ spelling ps w.
Proof.
  intros w k I.
  assert (H : forallb (fun x => existsb (fun y => token_eqb (snd y) (snd x) && existsb (String.eqb (fst x)) (spellings (fst y))) keyword) keywords = true)
    by (vm_compute; reflexivity).
  rewrite forallb_forall in H. specialize (H _ I). cbn beta in H. apply existsb_exists in H.
  destruct H as [[ps k'] [J Q]]. cbn [fst snd] in Q. apply andb_true_iff in Q. destruct Q as [Q1 Q2].
  apply token_eqb_eq in Q1. subst k'. exists ps. split; [exact J|]. apply spellings_ok.
  apply existsb_exists in Q2. destruct Q2 as [x [J2 Q2]]. apply String.eqb_eq in Q2. now subst.
Qed.
Lemma key_out : forall ps k w, In (ps, k) keyword -> spelling ps w -> In (w, k) keywords.
Proof.
  intros ps k w I S. apply spellings_ok in S.
  assert (H : forallb (fun y => forallb (fun w => existsb (fun x => String.eqb (fst x) w && token_eqb (snd x) (snd y)) keywords) (spellings (fst y))) keyword = true)
    by (vm_compute; reflexivity).
  rewrite forallb_forall in H. specialize (H _ I). cbn beta in H. rewrite forallb_forall in H. specialize (H _ S). cbn beta in H.
  apply existsb_exists in H. destruct H as [[l t] [J Q]]. cbn [fst snd] in Q. apply andb_true_iff in Q. destruct Q as [Q1 Q2].
  apply String.eqb_eq in Q1. apply token_eqb_eq in Q2. now subst.
Qed.
Lemma keys_once : forall w k k', In (w, k) keywords -> In (w, k') keywords -> k = k'.
Proof.
  intros w k k' I J.
  assert (H : forallb (fun x => forallb (fun y => negb (String.eqb (fst x) (fst y)) || token_eqb (snd x) (snd y)) keywords) keywords = true)
    by (vm_compute; reflexivity).
  rewrite forallb_forall in H. specialize (H _ I). cbn beta in H. rewrite forallb_forall in H. specialize (H _ J). cbn [fst snd] in H.
  rewrite String.eqb_refl in H. now apply token_eqb_eq.
Qed.
Definition word_token (w : string) : token := match look w keywords with Some k => k | None => T_STRING w end.
Lemma word_named : forall w k, named w k -> k = word_token w.
Proof.
  intros w k N. unfold word_token. inversion N as [ps k' w' I S|w' F]; subst.
  - destruct (look_some w keywords k (key_out _ _ _ I S)) as [k' L]. rewrite L.
    exact (keys_once _ _ _ (key_out _ _ _ I S) (look_in _ _ _ L)).
  - destruct (look w keywords) as [k|] eqn:L; [|reflexivity]. destruct (key_in _ _ (look_in _ _ _ L)) as [ps [I S]].
    now elim (F ps k I).
Qed.
Lemma every_named : forall w, exists k, named w k.
Proof.
  intro w. destruct (look w keywords) as [k|] eqn:L.
  - destruct (key_in _ _ (look_in _ _ _ L)) as [ps [I S]]. exists k. eapply named_keyword; eassumption.
  - exists (T_STRING w). apply named_other. intros ps k I S. destruct (look_some _ _ _ (key_out _ _ _ I S)) as [k' E]. congruence.
Qed.

(* ------------------------------------------------------------------ one step *)
Lemma ends_cons : forall b c s, ends_line b (String c s) = ends_line (Ascii.eqb c nl) s.
Proof. reflexivity. Qed.
Lemma ends_false : forall s b, lacks newline s -> ends_line b s = (match s with "" => b | _ => false end).
Proof.
  induction s as [|c s IH]; intros b L; [reflexivity|]. rewrite ends_cons. rewrite IH.
  - destruct s; [|reflexivity]. destruct (Ascii.eqb_spec c nl); [subst; elim L; now left|reflexivity].
  - intro I. apply L. now right.
Qed.
Lemma ends_app : forall s b t, ends_line b (s ++ t) = ends_line (ends_line b s) t.
Proof. induction s; intros; [reflexivity|]. apply IHs. Qed.
Lemma step : forall f m bol line t r n a, t <> "" -> n = String.length t ->
  pick (rules m bol) (t ++ r) None = Some (n, a) ->
  scan (S f) m bol line (t ++ r) =
    match a with
    | A_tok k => option_map (fun '(ts, o) => ((k, line) :: ts, o)) (scan f m (ends_line bol t) line r)
    | A_string => option_map (fun '(ts, o) => ((T_STRING t, line) :: ts, o)) (scan f m (ends_line bol t) line r)
    | A_skip => scan f m (ends_line bol t) line r
    | A_line => scan f m (ends_line bol t) (line + 1) r
    | A_begin m' => scan f m' (ends_line bol t) line r
    | A_copy => option_map (fun '(ts, o) => (ts, (t ++ o)%string)) (scan f m (ends_line bol t) line r)
    | A_copy_line => option_map (fun '(ts, o) => (ts, (t ++ o)%string)) (scan f m (ends_line bol t) (line + 1) r)
    end.
Proof.
  intros f m bol line t r n a N -> P. cbn [scan]. destruct (t ++ r)%string as [|c s] eqn:E; [destruct t; [congruence|discriminate]|].
  rewrite P. rewrite <- E, sub_app, after_app. reflexivity.
Qed.
Lemma pick_sign : forall s k r bol, sign_token s k -> pick (rules INITIAL bol) (s ++ r) None = Some (String.length s, A_tok k).
Proof.
  intros s k r bol H. unfold sign_token in H. cbn [In] in H.
  repeat (destruct H as [H|H]; [injection H as <- <-; destruct bol, r; reflexivity|]). destruct H.
Qed.
Lemma pick_newline : forall r bol, pick (rules INITIAL bol) (String nl r) None = Some (1, A_line).
Proof. intros [] []; reflexivity. Qed.
Lemma pick_quote : forall r bol, pick (rules INITIAL bol) (String quote r) None = Some (1, A_begin STR).
Proof. intros [] []; reflexivity. Qed.
Lemma pick_remark : forall s r bol, lacks newline s ->
  pick (rules INITIAL bol) (String "#" (s ++ String nl r)) None = Some (S (String.length s), A_skip).
Proof.
  intros s r bol L.
  assert (E : comment (String "#" (s ++ String nl r)) = Some (S (String.length s))).
  { unfold comment. cbn [Ascii.eqb Bool.eqb]. rewrite (span_app (fun c => negb (Ascii.eqb c nl)) s (String nl r) (lacks_span _ _ L)); [|reflexivity].
    now rewrite after_app. }
  transitivity (match comment (String "#" (s ++ String nl r)) with Some n => Some (n, A_skip) | None => None end); [|now rewrite E].
  destruct bol; reflexivity.
Qed.
Lemma pick_spaces : forall s r bol, s <> "" -> all_of space_or_tab s -> stops blank r ->
  pick (rules INITIAL bol) (s ++ r) None = Some (String.length s, A_skip).
Proof.
  intros s r bol N A R.
  assert (E : some blank (s ++ r)%string = Some (String.length s)).
  { unfold some. rewrite (span_app _ s r (all_span _ _ _ blank_ok A) R). destruct s; [congruence|reflexivity]. }
  transitivity (match some blank (s ++ r)%string with Some n => Some (n, A_skip) | None => None end); [|now rewrite E].
  destruct s as [|c s]; [congruence|]. change (String c s ++ r)%string with (String c (s ++ r)).
  unfold all_of in A. cbn [list_ascii_of_string] in A. inversion A as [|? ? [C|C] _]; subst; destruct bol; reflexivity.
Qed.
Lemma delimiter_ok : forall l a r, all_of space_or_tab a ->
  delimiter l true (l ++ a ++ String nl r)%string = Some (String.length (line_of (l ++ a))).
Proof.
  intros l a r A. unfold delimiter. rewrite prefix_self. cbn [andb]. rewrite after_app.
  rewrite (span_app _ a (String nl r) (all_span _ _ _ blank_ok A)); [|reflexivity]. rewrite after_app. rewrite Ascii.eqb_refl.
  unfold line_of. rewrite !len_app. reflexivity.
Qed.
Lemma pick_open : forall a r, all_of space_or_tab a ->
  pick (rules INITIAL true) ("%{" ++ a ++ String nl r)%string None = Some (String.length (line_of ("%{" ++ a)), A_begin PASSTHRU).
Proof.
  intros a r A.
  transitivity (match delimiter "%{" true ("%{" ++ a ++ String nl r)%string with Some n => Some (n, A_begin PASSTHRU) | None => None end).
  - reflexivity.
  - now rewrite delimiter_ok.
Qed.
Definition not_nl (c : ascii) : bool := negb (Ascii.eqb c nl).
Lemma pass_cons : forall bol s, pick (rules PASSTHRU bol) s None =
  let b := match delimiter "%}" bol s with Some n => Some (n, A_begin INITIAL) | None => None end in
  let b := match lit (String nl "") s with None => b
    | Some n => match b with Some (m, _) => if (m <? n)%nat then Some (n, A_copy_line) else b | None => Some (n, A_copy_line) end end in
  match some not_nl s with None => b
    | Some n => match b with Some (m, _) => if (m <? n)%nat then Some (n, A_copy) else b | None => Some (n, A_copy) end end.
Proof. reflexivity. Qed.
Lemma space_not_nl : forall a, all_of space_or_tab a -> lacks newline a.
Proof.
  intros a A I. unfold all_of in A. rewrite Forall_forall in A. destruct (A _ I); discriminate.
Qed.
Lemma pick_close : forall b r, all_of space_or_tab b ->
  pick (rules PASSTHRU true) ("%}" ++ b ++ String nl r)%string None = Some (String.length (line_of ("%}" ++ b)), A_begin INITIAL).
Proof.
  intros b r A. rewrite pass_cons. rewrite delimiter_ok by exact A. cbn zeta.
  change (lit (String nl "") ("%}" ++ b ++ String nl r)%string) with (@None nat). cbv iota.
  assert (E : some not_nl ("%}" ++ b ++ String nl r)%string = Some (String.length ("%}" ++ b))).
  { unfold some. change (span not_nl ("%}" ++ b ++ String nl r)%string) with (S (S (span not_nl (b ++ String nl r)%string))).
    rewrite (span_app not_nl b (String nl r)); [reflexivity| |reflexivity]. exact (lacks_span _ _ (space_not_nl _ A)). }
  rewrite E. cbv iota beta. unfold line_of. rewrite (len_app ("%}" ++ b)).
  replace (_ <? _)%nat with false; [reflexivity|]. symmetry. apply Nat.ltb_ge. lia.
Qed.
Lemma pick_copy_line : forall bol r, pick (rules PASSTHRU bol) (String nl r) None = Some (1, A_copy_line).
Proof. intros [] []; reflexivity. Qed.
Lemma after_len : forall n s, n <= String.length s -> exists h, s = (h ++ after n s)%string /\ String.length h = n /\ h = substring 0 n s.
Proof.
  induction n; intros s L; [exists ""; destruct s; repeat split|]. destruct s as [|c s]; [cbn in L; lia|].
  destruct (IHn s) as [h [E [F G]]]; [cbn in L; lia|]. exists (String c h). split; [exact (f_equal (String c) E)|].
  split; [cbn; lia|exact (f_equal (String c) G)].
Qed.
Lemma span_len : forall p s, span p s <= String.length s.
Proof. induction s; cbn [span String.length]; [lia|]. destruct (p a); lia. Qed.
Lemma span_split : forall p s, exists h, s = (h ++ after (span p s) s)%string /\ Forall (fun c => p c = true) (list_ascii_of_string h) /\
  stops p (after (span p s) s).
Proof.
  induction s as [|c s [h [E [F G]]]]; [exists ""; repeat split; constructor|]. cbn [span]. destruct (p c) eqn:P.
  - exists (String c h). split; [exact (f_equal (String c) E)|]. split; [constructor; assumption|exact G].
  - exists "". split; [reflexivity|]. split; [constructor|exact P].
Qed.
Lemma pick_copy : forall l r bol, lacks newline l -> l <> "" -> (forall c, all_of space_or_tab c -> l <> ("%}" ++ c)%string) ->
  pick (rules PASSTHRU bol) (l ++ String nl r)%string None = Some (String.length l, A_copy).
Proof.
  intros l r bol L N D. rewrite pass_cons.
  assert (E : some not_nl (l ++ String nl r)%string = Some (String.length l)).
  { unfold some. rewrite (span_app not_nl l (String nl r)); [destruct l; [congruence|reflexivity]|exact (lacks_span _ _ L)|reflexivity]. }
  assert (F : lit (String nl "") (l ++ String nl r)%string = None).
  { destruct l as [|c l]; [congruence|]. unfold lit. change (String c l ++ String nl r)%string with (String c (l ++ String nl r)).
    cbn [prefix]. destruct (ascii_dec nl c); [subst; elim L; now left|reflexivity]. }
  assert (G : delimiter "%}" bol (l ++ String nl r)%string = None).
  { unfold delimiter. destruct (bol && prefix "%}" (l ++ String nl r)) eqn:P; [|reflexivity]. apply andb_true_iff in P. destruct P as [_ P].
    destruct l as [|c [|d l]]; [congruence| |].
    - cbn [append prefix] in P. destruct (ascii_dec "%" c); [|discriminate]. discriminate.
    - change (String c (String d l) ++ String nl r)%string with (String c (String d (l ++ String nl r))) in P |- *.
      cbn [prefix] in P. destruct (ascii_dec "%" c); [|discriminate]. destruct (ascii_dec "}" d); [|discriminate]. subst c d.
      cbn [String.length after].
      destruct (span_split blank l) as [h [S1 [S2 S3]]].
      destruct (after (span blank l) l) as [|e t] eqn:A.
      + rewrite app_nil_s in S1. subst h. elim (D l); [|reflexivity]. unfold all_of. eapply Forall_impl; [|exact S2].
        intros x Hx. now apply blank_ok.
      + assert (X : span blank (l ++ String nl r)%string = String.length h).
        { rewrite S1, app_assoc_s. apply span_app; [exact S2|exact S3]. }
        rewrite X. rewrite S1, app_assoc_s, after_app. change (String e t ++ String nl r)%string with (String e (t ++ String nl r)).
        cbv iota beta. destruct (Ascii.eqb_spec e nl); [|reflexivity]. subst e. elim L. right. right. rewrite S1.
        rewrite <- (string_of_list_ascii_of_string h) at 1.
        assert (Y : forall u v, In newline (list_ascii_of_string (u ++ String nl v)%string)) by (induction u; intro v; [now left|right; apply IHu]).
        rewrite string_of_list_ascii_of_string. apply Y. }
  rewrite E, F, G. reflexivity.
Qed.
