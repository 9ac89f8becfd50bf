From Coq Require Import String Ascii List NArith Bool Arith Lia.
From Verif Require Import Base TokData CmavoData TokModel LujvoSpec MorfModel MorfSpec MorfProofs7 LexModel LexSpec LexProofs LexProofs2 LexProofs4 LexProofs5 LexProofs6.
Import ListNotations.
Open Scope N_scope.
Open Scope list_scope.

(* ---- letters ---- *)
Lemma sounds_app a b : sounds (a ++ b) = sounds a ++ sounds b.
Proof. unfold sounds. induction a as [|c a IH]; [reflexivity|]. cbn. destruct (negb _); cbn; now rewrite IH. Qed.
Lemma sounds_concat l : sounds (concat l) = concat (map sounds l).
Proof. induction l as [|x l IH]; [reflexivity|]. cbn [concat map]. now rewrite sounds_app, IH. Qed.
Lemma sounds_commas l : forallb comma l = true -> sounds l = [].
Proof. induction l as [|c l IH]; [reflexivity|]. cbn. unfold comma at 1. destruct (Ascii.eqb c ","); [exact IH|discriminate]. Qed.
Lemma sounds_listed p code s : listed p code s -> sounds p = p.
Proof.
  intro H. apply listed_chars in H. induction H as [|c p H _ IH]; [reflexivity|]. unfold sounds in *. cbn [filter].
  assert (Q : negb (Ascii.eqb c "," || Ascii.eqb c " ") = true).
  { cbn in H. repeat (destruct H as [<-|H]; [reflexivity|]). contradiction. }
  now rewrite Q, IH.
Qed.
Lemma list_append a b : list_ascii_of_string (append a b) = list_ascii_of_string a ++ list_ascii_of_string b.
Proof. induction a; cbn; congruence. Qed.
Lemma spoken_sounds ws : sounds (list_ascii_of_string (spoken ws)) = sounds (concat ws).
Proof.
  induction ws as [|w ws IH]; [reflexivity|]. destruct ws as [|z ws].
  - cbn. now rewrite list_ascii_of_string_of_list_ascii, app_nil_r.
  - change (spoken (w :: z :: ws)) with (append (string_of_list_ascii w) (append " " (spoken (z :: ws)))).
    rewrite !list_append, !sounds_app, IH, list_ascii_of_string_of_list_ascii. cbn [concat]. rewrite !sounds_app. reflexivity.
Qed.
Definition held (q : quoting) : list ascii :=
  match q with
  | Plain => []
  | Opened f _ _ => list_ascii_of_string f
  | Quoted f d _ _ ws => list_ascii_of_string f ++ sounds d ++ sounds (concat ws)
  end.
Definition tells (ts : list (ndata * N * N)) (xs : list (list ascii)) : Prop := Forall2 (fun x t => token_sounds (fst (fst x)) t) ts xs.
Definition form_ok (q : quoting) : Prop := match q with Plain => True | Opened f _ _ | Quoted f _ _ _ _ => In f quote_words end.
Lemma form_sounds f : In f quote_words -> sounds (list_ascii_of_string f) = list_ascii_of_string f.
Proof. intros [<-|[<-|[]]]; reflexivity. Qed.
Lemma cmavo_sounds ps c ts b l : cmavo_tokens ps c ts b -> b = false -> exists xs, tells (at_line l ts) xs /\ concat xs = sounds (concat ps).
Proof.
  induction 1 as [|p ps c d b ts b' H K IH]; intro E; [exists []; split; [constructor|reflexivity]|]. apply orb_false_iff in E as [-> E2]. destruct (IH E2) as (xs & T & X).
  inversion H as [code s Hl| |]; subst. exists (p :: xs). split; [constructor; [exact Hl|exact T]|]. cbn [concat]. rewrite sounds_app, X. rewrite (sounds_listed _ _ _ Hl). reflexivity.
Qed.
Lemma split_sounds w ss ps : split_at w ss ps -> sounds w = sounds (concat ps).
Proof. intros (lead & L & -> & _). now rewrite sounds_app, sounds_commas by assumption. Qed.
Lemma says_sounds cult q w l c ts b q' : says cult q w l c ts b q' -> b = false -> form_ok q ->
  form_ok q' /\ exists xs, tells ts xs /\ concat xs ++ held q' = held q ++ sounds w.
Proof.
  intro S. induction S; intros B F.
  - split; [exact H|]. exists []. split; [constructor|]. cbn. now rewrite form_sounds.
  - split; [exact F|]. exists []. split; [constructor|]. cbn. now rewrite app_nil_r.
  - split; [exact I|]. eexists. split; [constructor; [reflexivity|constructor]|]. cbn [concat held]. rewrite !app_nil_r, !sounds_app, !list_ascii_of_string_of_list_ascii, spoken_sounds, form_sounds by exact F.
    now rewrite <- !app_assoc.
  - split; [exact F|]. exists []. split; [constructor|]. cbn. rewrite concat_app, sounds_app. cbn. now rewrite app_nil_r, <- !app_assoc.
  - discriminate.
  - split; [exact I|]. destruct (cmavo_sounds _ _ _ _ l H4 B) as (xs & T & X). exists xs. split; [exact T|]. cbn [held app]. rewrite app_nil_r, X. symmetry. now apply (split_sounds _ _ _ H2).
  - split; [exact I|]. destruct (cmavo_sounds _ _ _ _ l H3 B) as (xs & T & X). exists (xs ++ [sounds lastp]). split.
    + unfold at_line, tells. rewrite map_app. apply Forall2_app; [exact T|]. constructor; [|constructor]. cbn. now rewrite list_ascii_of_string_of_list_ascii.
    + cbn [held app]. rewrite app_nil_r, concat_app, X. cbn. rewrite app_nil_r, <- sounds_app. symmetry. rewrite (split_sounds _ _ _ H2), concat_app. cbn. now rewrite app_nil_r.
  - split; [exact I|]. eexists. split; [constructor; [reflexivity|constructor]|]. cbn [concat held app]. now rewrite !app_nil_r, list_ascii_of_string_of_list_ascii.
  - apply orb_false_iff in B as [B B3]. apply orb_false_iff in B as [B1 B2].
    destruct (IHS1 B1 F) as (F1 & x1 & T1 & E1). destruct (IHS2 B2 F1) as (F2 & x2 & T2 & E2). destruct (IHS3 B3 F2) as (F3 & x3 & T3 & E3).
    split; [exact F3|]. exists (x1 ++ x2 ++ x3). split; [unfold tells; repeat apply Forall2_app; assumption|]. destruct H2 as (-> & _).
    rewrite !concat_app, <- !app_assoc, E3, (app_assoc (concat x2)), E2, !app_assoc, E1, !sounds_app, !app_assoc. reflexivity.
  - apply orb_false_iff in B as [B2 B3]. destruct (IHS1 B2 F) as (F2 & x2 & T2 & E2). destruct (IHS2 B3 F2) as (F3 & x3 & T3 & E3).
    split; [exact F3|]. exists (x2 ++ x3). split; [unfold tells; apply Forall2_app; assumption|]. destruct H2 as (-> & _). cbn [app].
    rewrite concat_app, <- app_assoc, E3, app_assoc, E2, sounds_app, app_assoc. reflexivity.
Qed.
Definition call_word (x : call) : list ascii := match x with Call w _ _ => w | Line => [] end.
Lemma counted_app ts o : snd (counted (outs ts ++ o)) = (match rev ts with
   | [] => snd (counted o) | x :: r => map (fun z => (z, 0)) (rev r) ++ (x, fst (counted o)) :: snd (counted o) end).
Proof.
  induction ts as [|[[d l] c] ts IH]; [reflexivity|]. cbn [outs map app counted fst snd rev]. fold (outs ts).
  destruct (counted (outs ts ++ o)) as [n tt] eqn:E. cbn [snd] in IH |- *. destruct (rev ts) as [|x r] eqn:R; cbn [app].
  - apply (f_equal (@rev _)) in R. rewrite rev_involutive in R. subst ts. cbn in E. rewrite E. cbn. reflexivity.
  - rewrite rev_app_distr. cbn [rev app map]. rewrite IH.
    assert (n = 0). { destruct ts as [|[[d' l'] c'] ts]; [discriminate|]. cbn [outs map app counted fst snd] in E. destruct (counted _). now injection E. }
    now subst n.
Qed.
Definition out_tells (o : list out) (xs : list (list ascii)) : Prop := Forall2 (fun x t => token_sounds (fst (fst (fst x))) t) (snd (counted o)) xs.
Lemma tells_counted ts o xs xo : tells ts xs -> out_tells o xo -> out_tells (outs ts ++ o) (xs ++ xo).
Proof.
  unfold out_tells. intros T O. induction T as [|[[d l] c] t ts xs H _ IH]; [exact O|]. cbn [outs map app counted fst snd]. fold (outs ts).
  destruct (counted (outs ts ++ o)). cbn [snd] in *. constructor; [exact H|exact IH].
Qed.
Lemma all_sounds cult q cs o b q' : says_all cult q cs o b q' -> b = false -> form_ok q ->
  form_ok q' /\ exists xs, out_tells o xs /\ concat xs ++ held q' = held q ++ sounds (concat (map call_word cs)).
Proof.
  induction 1 as [q|q cs o b q' S IH|q w l c cs ts b q1 o b' q' S _ IH]; intros B F.
  - split; [exact F|]. exists []. split; [constructor|]. cbn. now rewrite app_nil_r.
  - destruct (IH B F) as (F' & xs & T & X). split; [exact F'|]. exists xs. split; [|exact X]. unfold out_tells in *. cbn [counted]. destruct (counted o). exact T.
  - apply orb_false_iff in B as [B1 B2]. destruct (says_sounds _ _ _ _ _ _ _ _ S B1 F) as (F1 & xs & T & X). destruct (IH B2 F1) as (F' & xo & O & Y).
    split; [exact F'|]. exists (xs ++ xo). split; [now apply tells_counted|]. cbn [map concat call_word]. rewrite concat_app, sounds_app, <- app_assoc, Y, !app_assoc, X. reflexivity.
Qed.
Lemma calls_event e : forall k, concat (map call_word (calls k e)) = concat (map event_word e).
Proof. induction e as [|[] e IH]; intro k; cbn [calls map concat event_word call_word]; rewrite ?IH; reflexivity. Qed.
Lemma text_sounds cult is k st' : Forall proper is -> no_nul (written is) -> (length (written is) < k)%nat -> parse_file k cult (written is) lexer0 = Ok st' ->
  lx_bad st' = false ->
  exists e q xs, reads 1 1 is e /\ Forall2 (fun x t => match fst x with Node d _ _ _ _ _ _ => token_sounds d t end) (rev (lx_toks st')) xs
    /\ sounds (concat (map event_word e)) = concat xs ++ dropped q.
Proof.
  intros P Z L E B. destruct (text_says cult is k st' P Z L E) as (e & o & b & q & R & S & T & _ & B'). rewrite B in B'. symmetry in B'. apply orb_false_iff in B' as [B1 B2].
  destruct (all_sounds _ _ _ _ _ _ S B1 I) as (_ & xs & O & X). exists e, q, xs. split; [exact R|]. split.
  - rewrite T. clear - O. unfold out_tells in O. induction O as [|[[[d l] c] n] t l1 l2 H _ IH]; [constructor|]. cbn [map tok4]. constructor; [exact H|exact IH].
  - rewrite calls_event in X. cbn [held app] in X. rewrite <- X. f_equal. destruct q; [reflexivity|reflexivity|discriminate].
Qed.

(* ---- quotations ---- *)
Inductive quoted_calls : list (list ascii) -> list call -> nat -> Prop :=
| qc_nil : quoted_calls [] [] 0
| qc_word w l c ws cs n : quoted_calls ws cs n -> quoted_calls (w :: ws) (Call w l c :: cs) n
| qc_line ws cs n : quoted_calls ws cs n -> quoted_calls ws (Line :: cs) (S n).
Lemma quote_inside cult f d l0 c0 ws cs n : quoted_calls ws cs n -> ~ In d ws -> forall ws0 cs' o b q',
  says_all cult (Quoted f d l0 c0 ws0) (cs ++ cs') o b q' -> exists o', o = repeat EndLine n ++ o' /\ says_all cult (Quoted f d l0 c0 (ws0 ++ ws)) cs' o' b q'.
Proof.
  induction 1 as [|w l c ws cs n Q IH|ws cs n Q IH]; intros Nd ws0 cs' o b q' H.
  - exists o. now rewrite app_nil_r.
  - cbn [app] in H. inversion H as [| |? ? ? ? ? ts b1 q1 o1 b2 ? Hs Ha]; subst. inversion Hs; subst; [destruct Nd; now left|].
    destruct (IH ltac:(intro K; apply Nd; now right) _ _ _ _ _ Ha) as (o' & -> & K). exists o'. split; [reflexivity|]. now rewrite <- app_assoc in K.
  - cbn [app] in H. inversion H as [|? ? o1 ? ? Ha|]; subst. destruct (IH Nd _ _ _ _ _ Ha) as (o' & -> & K). exists o'. split; [reflexivity|exact K].
Qed.
Lemma quote_calls cult f d ws cs n m l c l1 c1 l2 c2 cs' o b q' : In f quote_words -> ~ In d ws -> quoted_calls ws cs n ->
  says_all cult Plain (Call (list_ascii_of_string f) l c :: repeat Line m ++ Call d l1 c1 :: cs ++ Call d l2 c2 :: cs') o b q' ->
  exists o', o = repeat EndLine (m + n) ++ Tk (N_ZOI f (string_of_list_ascii d) (spoken ws)) l c :: o' /\ says_all cult Plain cs' o' b q'.
Proof.
  intros If Nd Q H. inversion H as [| |? ? ? ? ? ts b1 q1 o1 b2 ? Hs Ha]; subst.
  assert (X : ts = [] /\ b1 = false /\ q1 = Opened f l c).
  { assert (Iq : In (string_of_list_ascii (list_ascii_of_string f)) quote_words) by now rewrite string_of_list_ascii_of_string.
    inversion Hs; subst; try contradiction; [|destruct If as [<-|[<-|[]]]; contradiction..].
    repeat split. assert (f0 = f) by (rewrite <- (string_of_list_ascii_of_string f0), H0; apply string_of_list_ascii_of_string). now subst. }
  destruct X as (-> & -> & ->). cbn [outs map app orb]. clear H Hs.
  assert (M : exists o2, o1 = repeat EndLine m ++ o2 /\ says_all cult (Opened f l c) (Call d l1 c1 :: cs ++ Call d l2 c2 :: cs') o2 b2 q').
  { clear - Ha. revert o1 Ha. induction m as [|m IH]; intros o1 Ha; [exists o1; auto|]. cbn [repeat app] in Ha. inversion Ha as [|? ? o9 ? ? Hx|]; subst. destruct (IH _ Hx) as (o2 & -> & K). exists o2. auto. }
  destruct M as (o2 & -> & Hd). inversion Hd as [| |? ? ? ? ? ts b1 q1 o3 b3 ? Hs Hi]; subst. inversion Hs; subst. cbn [outs map app orb].
  destruct (quote_inside _ _ _ _ _ _ _ _ Q Nd _ _ _ _ _ Hi) as (o4 & -> & He). cbn [app] in He.
  inversion He as [| |? ? ? ? ? ts b1 q1 o5 b4 ? Hs' Hr]; subst. inversion Hs'; subst; [|congruence]. cbn [outs map app orb fst snd].
  exists o5. split; [|exact Hr]. rewrite repeat_app, <- app_assoc. reflexivity.
Qed.

(* ---- a quotation in a text ---- *)
Definition chars (s : string) : list item := map Ch (list_ascii_of_string s).
Definition a_word (w : list ascii) : Prop := w <> [] /\ Forall word_char w.
Definition starts_apart (is : list item) : Prop := forall i is', is = i :: is' -> ~ word_item i.
Lemma space_apart is : starts_apart (Ch " " :: is).
Proof. intros i is' E. injection E as <- <-. intros (S & _). discriminate. Qed.
Lemma reads_spoken (Pr : list event -> Prop) ws : forall is l, ws <> [] -> Forall a_word ws -> starts_apart is -> (forall c, exists e, reads l c is e /\ Pr e) -> forall c,
  exists es e', Forall2 (fun w x => exists c, x = Word w l c) ws es /\ reads l c (chars (spoken ws) ++ is) (es ++ e') /\ Pr e'.
Proof.
  induction ws as [|w ws IH]; intros is l Ne A St T c; [congruence|]. inversion A as [|? ? [W1 W2] A']; subst. destruct ws as [|z ws].
  - destruct (T (c + N.of_nat (length w))) as (e & R & K). exists [Word w l c], e. split; [constructor; [eauto|constructor]|].
    unfold chars. cbn. rewrite list_ascii_of_string_of_list_ascii. split; [constructor; auto|]. exact K.
  - destruct (IH is l ltac:(discriminate) A' St T (c + N.of_nat (length w) + 1)) as (es & e' & F & R & K). exists (Word w l c :: es), e'.
    split; [constructor; [eauto|exact F]|]. split; [|exact K]. unfold chars in *.
    change (spoken (w :: z :: ws)) with (append (string_of_list_ascii w) (append " " (spoken (z :: ws)))). rewrite !list_append, !map_app, list_ascii_of_string_of_list_ascii, <- !app_assoc.
    cbn [app]. apply rd_word; [exact W1|exact W2|apply space_apart|]. apply (rd_space _ _ " "%char); [reflexivity|discriminate|exact R].
Qed.
Lemma written_cons c is : written (Ch c :: is) = c :: written is.
Proof. reflexivity. Qed.
Lemma word_calls ws es l : Forall2 (fun w x => exists c, x = Word w l c) ws es -> exists cs, quoted_calls ws cs 0 /\ forall e, calls None (es ++ e) = cs ++ calls None e.
Proof.
  induction 1 as [|w x ws es (c & ->) _ (cs & Q & E)]; [exists []; split; [constructor|reflexivity]|].
  exists (Call w l c :: cs). split; [now constructor|]. intro e. cbn. now rewrite E.
Qed.
Lemma form_word f : In f quote_words -> a_word (list_ascii_of_string f).
Proof. intros [<-|[<-|[]]]; (split; [discriminate|]); repeat constructor; intro Q; discriminate. Qed.
Definition quotation (f d t : string) : string := append f (append " " (append d (append " " (append t (append " " d))))).
Lemma quote_text cult f d ws is k st' : In f quote_words -> a_word (list_ascii_of_string d) -> ws <> [] -> Forall a_word ws -> ~ In (list_ascii_of_string d) ws ->
  Forall proper is -> starts_apart is -> let t := list_ascii_of_string (quotation f d (spoken ws)) ++ written is in
  no_nul t -> (length t < k)%nat -> parse_file k cult t lexer0 = Ok st' ->
  exists n rest, rev (lx_toks st') = (Node (N_ZOI f d (spoken ws)) 1 1 None false None [], n) :: rest.
Proof.
  intros If Wd Nw Aw Nd P St t Z L E.
  set (all := chars f ++ Ch " " :: chars d ++ Ch " " :: chars (spoken ws) ++ Ch " " :: chars d ++ is).
  assert (Et : t = written all).
  { unfold t, all, quotation, chars. rewrite !written_app, !written_cons, !written_app, !written_cons, !written_app, !written_cons, !written_app, !written_chars.
    rewrite !list_append. cbn [list_ascii_of_string]. rewrite <- !app_assoc. reflexivity. }
  assert (Pall : Forall proper all).
  { assert (W : forall w, Forall word_char w -> Forall proper (map Ch w)) by (intros w H; rewrite Forall_map; eapply Forall_impl; [|exact H]; intros x (_ & _ & K); exact K).
    assert (Ps : Forall proper (chars (spoken ws))).
    { clear - W Aw. unfold chars. induction Aw as [|w ws [_ H] A IH]; [constructor|]. destruct ws as [|z ws]; [cbn; rewrite list_ascii_of_string_of_list_ascii; auto|].
      change (spoken (w :: z :: ws)) with (append (string_of_list_ascii w) (append " " (spoken (z :: ws)))). rewrite !list_append, !map_app, list_ascii_of_string_of_list_ascii.
      apply Forall_app. split; [auto|]. constructor; [intro Q; discriminate|exact IH]. }
    unfold all, chars in *. repeat (apply Forall_app; split); [apply W; now apply form_word|].
    constructor; [intro Q; discriminate|]. apply Forall_app; split; [apply W, Wd|]. constructor; [intro Q; discriminate|]. apply Forall_app; split; [exact Ps|].
    constructor; [intro Q; discriminate|]. apply Forall_app; split; [apply W, Wd|exact P]. }
  assert (Re : exists cs l1 c1 l2 c2 e', quoted_calls ws cs 0 /\ reads 1 1 all e' /\ exists e2, calls None e' = Call (list_ascii_of_string f) 1 1 :: Call (list_ascii_of_string d) l1 c1 :: cs ++ Call (list_ascii_of_string d) l2 c2 :: calls None e2).
  { set (c1 := 1 + N.of_nat (length (list_ascii_of_string f)) + 1). set (c2 := c1 + N.of_nat (length (list_ascii_of_string d)) + 1).
    destruct (form_word f If) as [Wf1 Wf2]. destruct Wd as [Wd1 Wd2].
    destruct (reads_spoken (fun e => exists c e2, e = Word (list_ascii_of_string d) 1 c :: e2) ws (Ch " " :: chars d ++ is) 1 Nw Aw (space_apart _)) with (c := c2) as (es & e' & F & R & c3 & e2 & ->).
    { intro c. destruct (reads_total is P 1 (c + 1 + N.of_nat (length (list_ascii_of_string d)))) as [e R]. exists (Word (list_ascii_of_string d) 1 (c + 1) :: e). split; [|eauto].
      apply (rd_space _ _ " "%char); [reflexivity|discriminate|]. apply rd_word; auto. }
    destruct (word_calls _ _ _ F) as (cs & Q & C). exists cs, 1, c1, 1, c3. eexists. split; [exact Q|]. split.
    - unfold all, chars. apply rd_word; [exact Wf1|exact Wf2|apply space_apart|]. apply (rd_space _ _ " "%char); [reflexivity|discriminate|].
      apply rd_word; [exact Wd1|exact Wd2|apply space_apart|]. apply (rd_space _ _ " "%char); [reflexivity|discriminate|]. exact R.
    - exists e2. cbn [calls fst snd]. rewrite C. reflexivity. }
  destruct Re as (cs & l1 & c1 & l2 & c2 & e' & Q & R & e2 & C).
  rewrite Et in E, Z, L. rewrite (parse_reads cult all e' lexer0 k Pall R L) in E. change (r_lex (reader0 lexer0)) with lexer0 in E.
  destruct (run cult (calls None e') lexer0) as [st1| | | |] eqn:E1; try discriminate. cbn [obind] in E. injection E as <-.
  destruct (run_says cult _ Plain lexer0 st1 (reads_whole _ _ _ _ R Z None) (conj eq_refl eq_refl) E1) as (o & b' & q & S & H & F & B).
  cbn [lx_toks lx_eols0 lexer0] in F. rewrite feed_counted, app_nil_r in F. injection F as F1 _.
  assert (T : lx_toks (ended st1) = lx_toks st1) by (unfold ended; destruct (zoi_data st1); auto). rewrite T, <- F1, rev_involutive.
  rewrite C in S. destruct (quote_calls cult f (list_ascii_of_string d) ws cs 0 0 1 1 l1 c1 l2 c2 _ _ _ _ If Nd Q S) as (o' & -> & _).
  cbn [repeat Nat.add app counted]. rewrite string_of_list_ascii_of_string. destruct (counted o') as [n ts]. cbn [snd map tok4]. eauto.
Qed.
