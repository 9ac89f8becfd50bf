From Coq Require Import String Ascii List NArith Bool Arith Lia.
From Verif Require Import Base TokData CmavoData TokModel LujvoSpec MorfModel MorfSpec MorfProofs6 MorfProofs7 MorfProofs10 LexModel LexSpec LexProofs LexProofs2 LexProofs4.
Import ListNotations.
Open Scope N_scope.
Open Scope list_scope.

(* ---- the places of letters ---- *)
Lemma place_of w : forall p k, (k < length (letters_of w))%nat ->
  exists a d b, w = a ++ d :: b /\ comma d = false /\ nth k (places p w) 0%nat = (p + length a)%nat /\ length (letters_of a) = k.
Proof.
  induction w as [|c w IH]; intros p k H; [cbn in H; lia|]. unfold letters_of in *. cbn [filter places] in *. destruct (comma c) eqn:C; cbn [negb] in H.
  - destruct (IH (S p) k H) as (a & d & b & -> & D & E & L). exists (c :: a), d, b. cbn [filter length app]. rewrite C. cbn [negb]. repeat split; auto. rewrite E. lia.
  - destruct k as [|k]; cbn [length nth] in *.
    + exists [], c, w. cbn. repeat split; auto.
    + destruct (IH (S p) k ltac:(lia)) as (a & d & b & -> & D & E & L). exists (c :: a), d, b. cbn [filter length app]. rewrite C. cbn [negb length]. repeat split; auto; try rewrite E; lia.
Qed.
Lemma letters_app a b : letters_of (a ++ b) = letters_of a ++ letters_of b.
Proof. unfold letters_of. induction a as [|c a IH]; [reflexivity|]. cbn. destruct (negb (comma c)); cbn; now rewrite IH. Qed.
Lemma plain_app a b : plain (a ++ b) = plain a ++ plain b.
Proof. unfold plain. now rewrite letters_app, map_app. Qed.
Lemma plain_length a : length (plain a) = length (letters_of a).
Proof. unfold plain. apply map_length. Qed.
Lemma plain_letter d b : comma d = false -> plain (d :: b) = lower d :: plain b.
Proof. intro H. unfold plain, letters_of. cbn. now rewrite H. Qed.
Lemma prefix_by (a b c d : list ascii) : a ++ b = c ++ d -> (length a <= length c)%nat -> exists m, c = a ++ m /\ b = m ++ d.
Proof.
  revert c. induction a as [|x a IH]; intros c E H; [exists c; auto|]. destruct c as [|z c]; [cbn in H; lia|]. cbn in E. injection E as <- E.
  destruct (IH c E ltac:(cbn in H; lia)) as (m & -> & ->). exists m. auto.
Qed.
Lemma marked_parts w i a b : is_bad_cmene w = Ok i -> ladoi i = Some a -> tail i = Some b ->
  exists pre m rest, marked w pre m rest /\ a = length pre /\ b = length (pre ++ m).
Proof.
  intros H La Ta. destruct (name_checked w i H) as (i' & A & ->). cbn [imap ladoi tail] in La, Ta. unfold name_answer in A.
  destruct (tail i') as [p|]; [|discriminate]. cbn in Ta. destruct A as (pre & m & c & post & M & Min & _ & Lp & -> & _).
  rewrite Lp in La. cbn in La. injection La as <-. injection Ta as <-.
  pose proof M as (E & Im & _). assert (Nm : m <> []) by (intro Z; subst m; cbn in Im; repeat (destruct Im as [Im|Im]; [discriminate|]); contradiction).
  assert (Lw : length (letters_of w) = length (pre ++ m ++ c :: post)) by (rewrite <- plain_length, E; reflexivity).
  rewrite !app_length in Lw. cbn [length] in Lw. assert (0 < length m)%nat by (destruct m; [congruence|cbn; lia]).
  destruct (place_of w 0 (length pre) ltac:(lia)) as (A1 & d1 & B1 & E1 & D1 & P1 & L1).
  destruct (place_of w 0 (length (pre ++ m)) ltac:(rewrite app_length; lia)) as (A2 & d2 & B2 & E2 & D2 & P2 & L2). rewrite app_length in L2.
  assert (Q : exists M, A2 = A1 ++ M).
  { destruct (Nat.le_ge_cases (length A1) (length A2)) as [Q|Q].
    - destruct (prefix_by A1 (d1 :: B1) A2 (d2 :: B2) ltac:(congruence) Q) as (X & -> & _). now exists X.
    - destruct (prefix_by A2 (d2 :: B2) A1 (d1 :: B1) ltac:(congruence) Q) as (X & -> & _). rewrite letters_app, app_length in L1. lia. }
  destruct Q as (M' & ->). rewrite letters_app, app_length in L2.
  assert (E3 : d1 :: B1 = M' ++ d2 :: B2) by (rewrite E1, <- app_assoc in E2; now apply app_inv_head in E2).
  exists A1, M', (d2 :: B2).
  assert (Pl : plain A1 = pre /\ plain M' = m).
  { rewrite E2, <- app_assoc, !plain_app in E. destruct (same_front _ _ _ _ E) as [-> E']; [now rewrite plain_length|].
    destruct (same_front _ _ _ _ E') as [-> _]; [rewrite plain_length; lia|auto]. }
  destruct Pl as [Pl1 Pl2]. split; [|split].
  - split; [now rewrite app_assoc|]. split; [|split].
    + destruct M' as [|x M']; [cbn in Pl2; congruence|]. injection E3 as <- _. eauto.
    + eauto.
    + exists c, post. rewrite Pl1, Pl2. split; [exact M|]. intros. rewrite plain_app, Pl1, Pl2. eapply Min; eauto.
  - unfold at_letter. now rewrite P1.
  - unfold at_letter. now rewrite P2.
Qed.
Lemma marked_short w pre m rest : marked w pre m rest -> (length pre < length w)%nat /\ (length m < length w)%nat /\ (length rest < length w)%nat /\ m <> [] /\ rest <> [].
Proof.
  intros (-> & (c & r & -> & _) & (c' & r' & -> & _) & _). rewrite !app_length. cbn [length].  repeat split; try lia; discriminate.
Qed.

(* ---- one word ---- *)
Definition tok3 (x : ndata * N * N) : node * N := (Node (fst (fst x)) (snd (fst x)) (snd x) None false None [], 0).
Definition grown (ts : list (ndata * N * N)) (b : bool) (st st' : lexer) : Prop :=
  lx_toks st' = rev (map tok3 ts) ++ lx_toks st /\ lx_eols0 st' = lx_eols0 st /\ lx_bad st' = lx_bad st || b.
Lemma grown_trans ts b st st' ts' b' st'' : grown ts b st st' -> grown ts' b' st' st'' -> grown (ts ++ ts') (b || b') st st''.
Proof.
  intros (A1 & A2 & A3) (B1 & B2 & B3). unfold grown. rewrite B1, B2, B3, A1, A2, A3, map_app, rev_app_distr, app_assoc, orb_assoc. auto.
Qed.
Lemma grown_refl st : grown [] false st st.
Proof. unfold grown. cbn. now rewrite orb_false_r. Qed.
Lemma tok3_line l ts : map tok3 (at_line l ts) = map (tok_at l) ts.
Proof. unfold at_line. rewrite map_map. reflexivity. Qed.
Lemma grown_plus l ts b st : grown (at_line l ts) b st (plus ts l b st).
Proof. unfold grown. rewrite tok3_line. cbn. auto. Qed.
Definition holds (q : quoting) (st : lexer) : Prop :=
  match q with
  | Plain => zoi_data st = None /\ zoi_next st = false
  | Opened f l c => zoi_data st = None /\ zoi_next st = true /\ zoi_form st = f /\ zoi_line st = l /\ zoi_col st = c
  | Quoted f d l c ws => zoi_data st = Some (spoken ws) /\ zoi_next st = false /\ zoi_form st = f /\ zoi_delim st = d /\ zoi_line st = l /\ zoi_col st = c
      /\ Forall (fun w => w <> []) ws
  end.
Lemma holds_plus l ts b st : holds Plain st -> holds Plain (plus ts l b st).
Proof. intro H. exact H. Qed.
Lemma spoken_snoc ws w : Forall (fun w => w <> []) ws ->
  spoken (ws ++ [w]) = append (match spoken ws with EmptyString => EmptyString | s => append s " " end) (string_of_list_ascii w).
Proof.
  intro H. assert (G : forall ws x, spoken (x :: ws ++ [w]) = append (append (spoken (x :: ws)) " ") (string_of_list_ascii w)).
  { clear ws H. induction ws as [|z ws IH]; intro x.
    - cbn. induction (string_of_list_ascii x) as [|c s IHs]; [reflexivity|]. cbn. cbn in IHs. now rewrite <- IHs.
    - change (spoken (x :: (z :: ws) ++ [w])) with (append (string_of_list_ascii x) (append " " (spoken (z :: ws ++ [w])))).
      change (spoken (x :: z :: ws)) with (append (string_of_list_ascii x) (append " " (spoken (z :: ws)))). rewrite IH.
      induction (string_of_list_ascii x) as [|c s IHs]; [reflexivity|]. cbn [append] in IHs |- *. now rewrite IHs. }
  destruct ws as [|x ws]; [reflexivity|]. cbn [app]. rewrite G. inversion H as [|? ? Hx _]; subst. destruct x as [|c x]; [congruence|].
  destruct ws; reflexivity.
Qed.
Lemma quote_word w : In (string_of_list_ascii w) quote_words -> w = list_ascii_of_string "zoi" \/ w = list_ascii_of_string "la'o".
Proof. intros [H|[H|[]]]; [left|right]; rewrite <- (list_ascii_of_string_of_list_ascii w), <- H; reflexivity. Qed.
Lemma cmene_is cult w r : morf_scan cult w = Ok r -> sc_type r = MT_CMENE -> exists i, sc_cmene r = Some i /\ is_bad_cmene w = Ok i.
Proof.
  unfold morf_scan. destruct (morf_loop 0 w m_init) as [[m|]| | | |]; cbn [obind]; try discriminate.
  2:{ intro E. injection E as <-. discriminate. }
  unfold morf_end. destruct (category (morf_exitval (m_state m))) as [res d].
  destruct res; try (intro E; injection E as <-; cbn [sc_type]; destruct (m_upper m); discriminate).
  - intro E; injection E as <-; cbn [sc_type]. destruct (m_upper m), cult; discriminate.
  - destruct (is_bad_cmene w) as [i| | | |]; cbn [obind]; try discriminate. intro E; injection E as <-. intros _. exists i. auto.
Qed.
Lemma word_says cult fuel : forall w l c q st st', w <> [] -> holds q st -> process_word fuel cult w l c st = Ok st' ->
  exists ts b q', says cult q w l c ts b q' /\ holds q' st' /\ grown ts b st st'.
Proof.
  induction fuel as [|fuel IH]; intros w l c q st st' Nw H E; [discriminate|].
  destruct q as [|f l0 c0|f d l0 c0 ws].
  3:{ destruct H as (H1 & H2 & H3 & H4 & H5 & H6 & H7). cbn [process_word] in E. rewrite H1 in E.
      destruct (list_eq_dec ascii_dec w (zoi_delim st)) as [Z|Z]; injection E as <-.
      - rewrite <- H4, <- Z in *. eexists _, _, _. split; [apply s_end|]. split; [split; [reflexivity|assumption]|].
        unfold close_zoi, grown, tok3. cbn. rewrite H3, H5, H6, <- Z, orb_false_r. auto.
      - eexists _, _, _. split; [apply s_quoted; congruence|]. split.
        + unfold extend_zoi. cbn. rewrite spoken_snoc by assumption. destruct (spoken ws); repeat split; auto; apply Forall_app; auto.
        + unfold grown, extend_zoi. cbn. rewrite orb_false_r. auto. }
  2:{ destruct H as (H1 & H2 & H3 & H4 & H5). cbn [process_word] in E. rewrite H1, H2 in E. unfold delim_zoi in E.
      destruct (Nat.leb_spec 64 (length w)) as [Z|Z]; [discriminate|]. injection E as <-. eexists _, _, _. split; [apply s_delimiter; exact Z|].
      split; [cbn; repeat split; auto|]. unfold grown. cbn. rewrite orb_false_r. auto. }
  pose proof H as [H1 H2]. cbn [process_word] in E. rewrite H1, H2 in E.
  destruct (list_eq_dec ascii_dec w (list_ascii_of_string "zoi")) as [->|Z1].
  { injection E as <-. eexists _, _, _. split; [apply (s_open cult "zoi"); cbn; auto|]. split; [cbn; auto|]. unfold grown. cbn. rewrite orb_false_r. auto. }
  destruct (list_eq_dec ascii_dec w (list_ascii_of_string "la'o")) as [->|Z2].
  { injection E as <-. eexists _, _, _. split; [apply (s_open cult "la'o"); cbn; auto|]. split; [cbn; auto|]. unfold grown. cbn. rewrite orb_false_r. auto. }
  assert (Nq : ~ In (string_of_list_ascii w) quote_words) by (intro Q; apply quote_word in Q as [Q|Q]; contradiction).
  destruct (morf_scan cult w) as [r| | | |] eqn:M; try discriminate. cbn [obind] in E.
  assert (Dec : accepted (sc_type r) \/ In (sc_type r) [MT_BOGUS; MT_BAD_UPPERCASE] \/ sc_type r = MT_CMENE).
  { unfold accepted. destruct (sc_type r); cbn; auto; left; repeat split; discriminate. }
  destruct Dec as [A|[Hb|Hn]].
  - assert (Q : ~ quoter w) by (intros [Q|Q]; contradiction).
    destruct (word_tokens cult w r l c st fuel H Q M A) as (front & lastp & ts & b & S & K).
    assert (E' : process_word (Datatypes.S fuel) cult w l c st = Ok st').
    { cbn [process_word]. rewrite H1, H2. destruct (list_eq_dec ascii_dec w (list_ascii_of_string "zoi")); [contradiction|].
      destruct (list_eq_dec ascii_dec w (list_ascii_of_string "la'o")); [contradiction|]. now rewrite M. }
    destruct (ty_of (sc_type r)) as [ty|] eqn:Ty.
    + destruct K as [K P]. rewrite P in E'. injection E' as <-. eexists _, _, _. split; [eapply s_brivla; eauto|]. split; [exact H|]. apply grown_plus.
    + destruct K as (Tc & K & P). rewrite P in E'. injection E' as <-. eexists _, _, _. split; [eapply s_cmavo; eauto|]. { destruct front; discriminate. }
      split; [exact H|]. apply grown_plus.
  - eexists [], true, Plain. split; [eapply s_wrong; eauto|]. destruct Hb as [Hb|[Hb|[]]]; rewrite <- Hb in E; injection E as <-; (split; [exact H|]); unfold grown; cbn; rewrite orb_true_r; auto.
  - destruct (cmene_is cult w r M Hn) as (i & Ci & Bi). rewrite Hn, Ci in E. destruct (is_bad i) eqn:Ib.
    + destruct (ladoi i) as [a|] eqn:La; [|discriminate]. destruct (tail i) as [b|] eqn:Ta; [|discriminate].
      destruct (marked_parts w i a b Bi La Ta) as (pre & m & rest & Mk & -> & ->). pose proof Mk as (Ew & _).
      destruct (marked_short _ _ _ _ Mk) as (L1 & L2 & L3 & Nm & Nr).
      assert (P1 : firstn (length pre) w = pre) by (rewrite Ew, firstn_app, Nat.sub_diag, firstn_all; cbn; apply app_nil_r).
      assert (P2 : firstn (length (pre ++ m) - length pre) (skipn (length pre) w) = m).
      { rewrite Ew, skipn_past, app_length. replace (length pre + length m - length pre)%nat with (length m) by lia. rewrite firstn_app, Nat.sub_diag, firstn_all. cbn. apply app_nil_r. }
      assert (P3 : skipn (length (pre ++ m)) w = rest) by (rewrite Ew, app_assoc; apply skipn_past).
      cbv zeta in E. rewrite P1, P2, P3 in E. destruct (Nat.leb_spec 8 (length m)) as [Z|Z]; [discriminate|].
      destruct pre as [|x pre].
      * cbn [obind length app] in E. destruct (process_word fuel cult m l (c + N.of_nat 0) st) as [st2| | | |] eqn:E2; try discriminate. cbn [obind] in E.
        destruct (IH _ _ _ Plain _ _ Nm H E2) as (ts2 & b2 & q2 & S2 & H2' & G2).
        destruct (IH _ _ _ _ _ _ Nr H2' E) as (ts3 & b3 & q3 & S3 & H3' & G3). rewrite N.add_0_r in S2.
        exists (ts2 ++ ts3), (b2 || b3), q3. split; [eapply s_mark_first; eauto|]. split; [exact H3'|]. now apply (grown_trans _ _ _ st2).
      * destruct (process_word fuel cult (x :: pre) l c st) as [st1| | | |] eqn:E1; try discriminate. cbn [obind] in E.
        destruct (process_word fuel cult m l (c + N.of_nat (length (x :: pre))) st1) as [st2| | | |] eqn:E2; try discriminate. cbn [obind] in E.
        assert (Np : x :: pre <> []) by discriminate.
        destruct (IH _ _ _ Plain _ _ Np H E1) as (ts1 & b1 & q1 & S1 & H' & G1).
        destruct (IH _ _ _ _ _ _ Nm H' E2) as (ts2 & b2 & q2 & S2 & H2' & G2).
        destruct (IH _ _ _ _ _ _ Nr H2' E) as (ts3 & b3 & q3 & S3 & H3' & G3).
        exists (ts1 ++ ts2 ++ ts3), (b1 || b2 || b3), q3. split; [eapply s_marked; eauto|]. split; [exact H3'|].
        rewrite app_assoc. apply (grown_trans _ _ _ st2); [|exact G3]. now apply (grown_trans _ _ _ st1).
    + injection E as <-. eexists _, _, _. split; [eapply s_name; eauto|].
      * destruct (name_checked w i Bi) as (i' & A & ->). cbn in Ib. unfold name_answer in A. destruct (tail i').
        { destruct A as (? & ? & ? & ? & _ & _ & B & _). congruence. } destruct A as (A & _). exact A.
      * destruct (name_checked w i Bi) as (i' & A & ->). cbn in Ib. unfold name_answer in A. destruct (tail i').
        { destruct A as (? & ? & ? & ? & _ & _ & B & _). congruence. } destruct A as (_ & _ & A). now apply A.
      * split; [exact H|]. unfold grown, tok3. cbn. rewrite orb_false_r. auto.
Qed.

(* ---- a text ---- *)
Fixpoint feed_out (o : list out) (p : list (node * N) * N) : list (node * N) * N :=
  match o with
  | [] => p
  | Tk d l c :: o => feed_out o ((Node d l c None false None [], 0) :: fst p, snd p)
  | EndLine :: o => feed_out o (match fst p with [] => ([], snd p + 1) | (n, e) :: r => ((n, e + 1) :: r, snd p) end)
  end.
Lemma feed_app o1 : forall o2 p, feed_out (o1 ++ o2) p = feed_out o2 (feed_out o1 p).
Proof. induction o1 as [|[d l c|] o1 IH]; intros o2 p; cbn; auto. Qed.
Lemma feed_toks ts : forall t n, feed_out (outs ts) (t, n) = (rev (map tok3 ts) ++ t, n).
Proof. induction ts as [|x ts IH]; intros t n; [reflexivity|]. cbn [outs map feed_out fst snd rev]. fold (outs ts). rewrite IH, <- app_assoc. reflexivity. Qed.
Definition whole (c : list call) : Prop := Forall (fun x => match x with Call w _ _ => w <> [] /\ cstring w = w | Line => True end) c.
Lemma run_says cult cs : forall q st st', whole cs -> holds q st -> run cult cs st = Ok st' ->
  exists o b q', says_all cult q cs o b q' /\ holds q' st' /\ feed_out o (lx_toks st, lx_eols0 st) = (lx_toks st', lx_eols0 st') /\ lx_bad st' = lx_bad st || b.
Proof.
  induction cs as [|[w l c|] cs IH]; intros q st st' Wh H E.
  - injection E as <-. exists [], false, q. repeat split; auto using sa_nil. now rewrite orb_false_r.
  - cbn [run] in E. inversion Wh as [|? ? Hw Wh']; subst. cbv beta iota in Hw. destruct Hw as [Nw Cw]. rewrite Cw in E. destruct (N.leb 65536 (N.of_nat (length w))); [discriminate|].
    destruct (word cult w l c st) as [st1| | | |] eqn:E1; try discriminate. cbn [obind] in E.
    destruct (word_says _ _ _ _ _ _ _ _ Nw H E1) as (ts & b & q1 & S1 & H1 & G1 & G2 & G3).
    destruct (IH _ _ _ Wh' H1 E) as (o & b' & q' & S2 & H2 & F & B). exists (outs ts ++ o), (b || b'), q'.
    split; [econstructor; eauto|]. split; [exact H2|]. rewrite feed_app, feed_toks, <- G1, <- G2. split; [exact F|]. now rewrite B, G3, orb_assoc.
  - cbn [run] in E. inversion Wh as [|? ? _ Wh']; subst.
    assert (H' : holds q (mark_eol st)) by (unfold mark_eol; destruct (lx_toks st) as [|[n e] r]; destruct q; exact H).
    destruct (IH _ _ _ Wh' H' E) as (o & b' & q' & S2 & H2 & F & B). exists (EndLine :: o), b', q'.
    split; [now constructor|]. split; [exact H2|]. split; [|rewrite B; unfold mark_eol; destruct (lx_toks st) as [|[n e] r]; reflexivity].
    cbn [feed_out fst snd]. unfold mark_eol in F. destruct (lx_toks st) as [|[n e] r]; exact F.
Qed.
Definition tok4 (x : ndata * N * N * N) : node * N := let '(d, l, c, n) := x in (Node d l c None false None [], n).
Lemma feed_counted o : forall t h, feed_out o (t, h) =
  (rev (map tok4 (snd (counted o))) ++ match t with [] => [] | (n, e) :: r => (n, e + fst (counted o)) :: r end,
   match t with [] => h + fst (counted o) | _ => h end).
Proof.
  induction o as [|[d l c|] o IH]; intros t h; cbn [feed_out counted fst snd].
  - cbn. destruct t as [|[n e] t]; rewrite ?N.add_0_r; reflexivity.
  - rewrite IH. destruct (counted o) as [n ts]. cbn [fst snd map rev tok4]. rewrite <- app_assoc. cbn [app]. rewrite N.add_0_l.
    destruct t as [|[n' e] t]; rewrite ?N.add_0_r; reflexivity.
  - destruct t as [|[n' e] t]; rewrite IH; destruct (counted o) as [n ts]; cbn [fst snd]; try (replace (h + 1 + n) with (h + (n + 1)) by lia; reflexivity); replace (e + 1 + n) with (e + (n + 1)) by lia; reflexivity.
Qed.
Lemma numeral_whole x w : numeral x = Some w -> list_ascii_of_string w <> [] /\ cstring (list_ascii_of_string w) = list_ascii_of_string w.
Proof.
  unfold numeral. cbn [find fst]. repeat (match goal with |- context [if ?b then _ else _] => destruct b end; [cbn; intro H; injection H as <-; split; [discriminate|reflexivity]|]). discriminate.
Qed.
Definition no_nul (t : list ascii) : Prop := Forall (fun c => c <> Ascii.zero) t.
Lemma cstring_whole w : no_nul w -> cstring w = w.
Proof.
  induction 1 as [|c w H _ IH]; [reflexivity|]. cbn. destruct (Ascii.eqb_spec c Ascii.zero); [contradiction|]. now rewrite IH.
Qed.
Lemma reads_whole l c is e : reads l c is e -> no_nul (written is) -> forall k, whole (calls k e).
Proof.
  unfold whole, no_nul. induction 1; intros Z k; cbn [calls].
  - constructor.
  - apply IHreads. unfold written in Z. cbn [map concat] in Z. apply Forall_app in Z. apply Z.
  - apply IHreads. unfold written in Z. cbn [map concat] in Z. apply Forall_app in Z. apply Z.
  - constructor; [exact I|]. apply IHreads. unfold written in Z. cbn [map concat] in Z. apply Forall_app in Z. apply Z.
  - constructor; [eapply numeral_whole; eauto|]. apply IHreads. unfold written in Z. cbn [map concat] in Z. apply Forall_app in Z. apply Z.
  - rewrite written_app, written_chars in Z. apply Forall_app in Z as [Z1 Z2]. constructor; [|apply IHreads; exact Z2]. split; [assumption|now apply cstring_whole].
Qed.
Lemma text_says cult is k st' : Forall proper is -> no_nul (written is) -> (length (written is) < k)%nat -> parse_file k cult (written is) lexer0 = Ok st' ->
  exists e o b q, reads 1 1 is e /\ says_all cult Plain (calls None e) o b q
    /\ rev (lx_toks st') = map tok4 (snd (counted o)) /\ lx_eols0 st' = fst (counted o) /\ lx_bad st' = b || in_quote q.
Proof.
  intros P Z L E. destruct (reads_total is P 1 1) as [e R]. rewrite (parse_reads cult is e lexer0 k P R L) in E.
  change (r_lex (reader0 lexer0)) with lexer0 in E.
  destruct (run cult (calls None e) lexer0) as [st1| | | |] eqn:E1; try discriminate. cbn [obind] in E. injection E as <-.
  destruct (run_says cult _ Plain lexer0 st1 (reads_whole _ _ _ _ R Z None) (conj eq_refl eq_refl) E1) as (o & b & q & S & H & F & B).
  exists e, o, b, q. split; [exact R|]. split; [exact S|]. cbn [lx_toks lx_eols0 lexer0] in F. rewrite feed_counted in F. injection F as F1 F2.
  assert (T : lx_toks (ended st1) = lx_toks st1 /\ lx_eols0 (ended st1) = lx_eols0 st1) by (unfold ended; destruct (zoi_data st1); auto). destruct T as [-> ->].
  rewrite app_nil_r in F1. rewrite <- F1, <- F2, rev_involutive. split; [reflexivity|]. split; [reflexivity|].
  unfold ended. cbn [lexer0 lx_bad orb] in B. destruct q; cbn [holds] in H; destruct H as [-> _]; cbn [in_quote set_bad lx_bad]; rewrite ?orb_false_r, ?orb_true_r; auto.
Qed.

(* ---- the other way: what is said is read ---- *)
Lemma listed_chars p code s : listed p code s -> Forall (fun c => In c (list_ascii_of_string "abcdefgijklmnoprstuvxyz'")) p.
Proof.
  unfold listed. intro H. apply chars_valid.
  assert (C : forallb (fun x => forallb cmavo_char (list_ascii_of_string (snd (fst x)))) cmavo_cells = true) by (vm_compute; reflexivity).
  rewrite forallb_forall in C. specialize (C _ H). cbn [fst snd] in C. now rewrite list_ascii_of_string_of_list_ascii in C.
Qed.
Lemma marks_end a b m m' : In m marks -> In m' marks -> a ++ m = b ++ m' -> a = b /\ m = m'.
Proof.
  intros H H' E. apply (f_equal (@rev ascii)) in E. rewrite !rev_app_distr in E. cbn in H, H'.
  assert (G : forall (x z : list ascii), rev x = rev z -> x = z) by (intros x z Q; rewrite <- (rev_involutive x), Q; apply rev_involutive).
  destruct H as [<-|[<-|[<-|[]]]], H' as [<-|[<-|[<-|[]]]]; cbn in E; try discriminate; injection E as E; apply G in E; auto.
Qed.
Lemma letter_split a b a' b' d d' : a ++ d :: b = a' ++ d' :: b' -> comma d = false -> comma d' = false -> length (letters_of a) = length (letters_of a') -> a = a'.
Proof.
  assert (G : forall a b a' b' d d', a ++ d :: b = a' ++ d' :: b' -> comma d = false -> length (letters_of a) = length (letters_of a') -> (length a <= length a')%nat -> a = a').
  { intros x z x' z' e e' E C L Q. destruct (prefix_by _ _ _ _ E Q) as (m & -> & E'). destruct m as [|c m]; [now rewrite app_nil_r|].
    injection E' as <- _. rewrite letters_app, app_length in L. unfold letters_of in L at 3. cbn in L. rewrite C in L. cbn in L. lia. }
  intros E C C' L. destruct (Nat.le_ge_cases (length a) (length a')) as [Q|Q]; [eapply G; eauto|symmetry; eapply G; eauto].
Qed.
Lemma marked_once w pre m rest pre' m' rest' : marked w pre m rest -> marked w pre' m' rest' -> pre = pre' /\ m = m' /\ rest = rest'.
Proof.
  intros (E & (c1 & r1 & M & C1) & (c2 & r2 & R & C2) & c & post & K & Min) (E' & (c1' & r1' & M' & C1') & (c2' & r2' & R' & C2') & c' & post' & K' & Min').
  pose proof (Min _ _ _ _ K') as L. pose proof (Min' _ _ _ _ K) as L'. rewrite plain_app in L, L'.
  destruct K as (K1 & K2 & _), K' as (K1' & K2' & _). rewrite K1 in K1'. rewrite !app_assoc in K1'.
  destruct (same_front _ _ _ _ K1' ltac:(lia)) as [F _]. destruct (marks_end _ _ _ _ K2 K2' F) as [F1 F2].
  assert (length (letters_of pre) = length (letters_of pre')) as Q1 by (rewrite <- !plain_length; congruence).
  assert (length (letters_of m) = length (letters_of m')) as Q2 by (rewrite <- !plain_length; congruence).
  assert (pre = pre').
  { apply (letter_split pre (r1 ++ rest) pre' (r1' ++ rest') c1 c1'); auto. rewrite M in E. rewrite M' in E'. cbn [app] in E, E'. congruence. }
  subst pre'. rewrite E in E'. apply app_inv_head in E'. split; [reflexivity|].
  assert (Hm : m = m') by (apply (letter_split m r2 m' r2' c2 c2'); auto; congruence). split; [exact Hm|]. rewrite <- Hm in E'. now apply app_inv_head in E'.
Qed.
Lemma marked_info cult w r pre m rest : morf_scan cult w = Ok r -> sc_type r = MT_CMENE -> marked w pre m rest ->
  exists i, sc_cmene r = Some i /\ is_bad i = true /\ ladoi i = Some (length pre) /\ tail i = Some (length (pre ++ m)).
Proof.
  intros H0 H1 Mk. destruct (cmene_is cult w r H0 H1) as (i & Ci & Bi). exists i. split; [exact Ci|].
  assert (P : is_bad i = true /\ exists a b, ladoi i = Some a /\ tail i = Some b).
  { destruct (name_checked w i Bi) as (i' & A & ->). unfold name_answer in A. cbn [imap is_bad ladoi tail]. destruct (tail i') as [p|].
    - destruct A as (? & ? & ? & ? & _ & _ & -> & -> & _). cbn. eauto.
    - destruct A as (A & _). destruct Mk as (_ & _ & _ & x & post & K & _). now apply A in K. }
  destruct P as (Ib & a & b' & La & Ta). destruct (marked_parts w i a b' Bi La Ta) as (pre' & m' & rest' & Mk' & -> & ->).
  destruct (marked_once _ _ _ _ _ _ _ Mk Mk') as (<- & <- & <-). auto.
Qed.
Lemma parts_cut (w pre m rest : list ascii) : w = pre ++ m ++ rest ->
  firstn (length pre) w = pre /\ firstn (length (pre ++ m) - length pre) (skipn (length pre) w) = m /\ skipn (length (pre ++ m)) w = rest.
Proof.
  intros ->. split; [|split].
  - rewrite firstn_app, Nat.sub_diag, firstn_all. cbn. apply app_nil_r.
  - rewrite skipn_past, app_length. replace (length pre + length m - length pre)%nat with (length m) by lia. rewrite firstn_app, Nat.sub_diag, firstn_all. cbn. apply app_nil_r.
  - rewrite app_assoc. apply skipn_past.
Qed.
Lemma marked_word cult w r pre m rest fuel l c st : morf_scan cult w = Ok r -> sc_type r = MT_CMENE -> marked w pre m rest -> (length m < 8)%nat ->
  ~ In (string_of_list_ascii w) quote_words -> holds Plain st ->
  process_word (S fuel) cult w l c st =
  (do st <- (match pre with [] => Ok st | _ => process_word fuel cult pre l c st end);
   do st <- process_word fuel cult m l (c + N.of_nat (length pre)) st;
   process_word fuel cult rest l (c + N.of_nat (length (pre ++ m))) st).
Proof.
  intros H0 H1 Mk Z Nq [H6 H7]. destruct (marked_info cult w r pre m rest H0 H1 Mk) as (i & Ci & Ib & La & Ta).
  pose proof Mk as (Ew & _). destruct (parts_cut _ _ _ _ Ew) as (P1 & P2 & P3).
  cbn [process_word]. rewrite H6, H7.
  destruct (list_eq_dec ascii_dec w (list_ascii_of_string "zoi")) as [E|_]; [destruct Nq; rewrite E; cbn; auto|].
  destruct (list_eq_dec ascii_dec w (list_ascii_of_string "la'o")) as [E|_]; [destruct Nq; rewrite E; cbn; auto|].
  rewrite H0. cbn [obind]. rewrite H1, Ci, Ib, La, Ta. cbv zeta. rewrite P1, P2, P3. destruct (Nat.leb_spec 8 (length m)); [lia|reflexivity].
Qed.
Definition reads_as cult q w l c ts b q' : Prop := forall fuel st, w <> [] -> (length w < fuel)%nat -> holds q st ->
  exists st', process_word fuel cult w l c st = Ok st' /\ holds q' st' /\ grown ts b st st'.
Lemma cmavo_token_once p d b d' b' : cmavo_token p d b -> cmavo_token p d' b' -> d = d' /\ b = b'.
Proof.
  intros H H'. destruct H as [code s L|N V|N], H' as [code' s' L'|N' V'|N']; auto; try contradiction; try (now destruct (N _ _ L')); try (now destruct (N' _ _ L)).
  - destruct (listed_once _ _ _ _ _ L L') as [-> ->]. auto.
  - exfalso. apply N'. apply listed_chars in L. exact L.
  - exfalso. apply N. apply listed_chars in L'. exact L'.
Qed.
Lemma cmavo_tokens_once ps c ts b : cmavo_tokens ps c ts b -> forall ts' b', cmavo_tokens ps c ts' b' -> ts = ts' /\ b = b'.
Proof.
  induction 1 as [|p ps c d b ts b1 H _ IH]; intros ts2 b2 K; inversion K as [|p0 ps0 c0 d0 b0 ts0 b3 H0 K0]; subst; [auto|]. destruct (cmavo_token_once _ _ _ _ _ H H0) as [-> ->]. destruct (IH _ _ K0) as [-> ->]. auto.
Qed.
Lemma split_once w ss ps ps' : split_at w ss ps -> split_at w ss ps' -> ps = ps'.
Proof. intros H H'. rewrite <- (between_split _ _ _ H). now apply between_split. Qed.
Lemma says_word cult q w l c ts b q' : says cult q w l c ts b q' -> reads_as cult q w l c ts b q'.
Proof.
  unfold reads_as. intro S. induction S; intros fuel st Nw Lf Hs; (destruct fuel as [|fuel]; [lia|]).
  - destruct Hs as [H1 H2]. cbn [process_word]. rewrite H1, H2. cbn in H. destruct H as [<-|[<-|[]]]; cbn; eexists; (split; [reflexivity|]); (split; [cbn; auto|]); unfold grown; cbn; rewrite orb_false_r; auto.
  - destruct Hs as (H1 & H2 & H3 & H4 & H5). cbn [process_word]. rewrite H1, H2. unfold delim_zoi. apply Nat.leb_gt in H. rewrite H. eexists. split; [reflexivity|].
    split; [cbn; repeat split; auto|]. unfold grown. cbn. rewrite orb_false_r. auto.
  - destruct Hs as (H1 & H2 & H3 & H4 & H5 & H6 & H7). cbn [process_word]. rewrite H1, H4. destruct (list_eq_dec ascii_dec d d); [|congruence]. eexists. split; [reflexivity|].
    split; [split; [reflexivity|assumption]|]. unfold close_zoi, grown, tok3. cbn. rewrite H3, H5, H6, H4, orb_false_r. auto.
  - destruct Hs as (H1 & H2 & H3 & H4 & H5 & H6 & H7). cbn [process_word]. rewrite H1, H4. destruct (list_eq_dec ascii_dec w d); [congruence|]. eexists. split; [reflexivity|].
    split. { unfold extend_zoi. cbn. rewrite spoken_snoc by assumption. destruct (spoken ws); repeat split; auto; apply Forall_app; auto. }
    unfold grown, extend_zoi. cbn. rewrite orb_false_r. auto.
  - pose proof Hs as [H2 H3]. cbn [process_word]. rewrite H2, H3.
    destruct (list_eq_dec ascii_dec w (list_ascii_of_string "zoi")) as [E|_]; [destruct H; rewrite E; cbn; auto|].
    destruct (list_eq_dec ascii_dec w (list_ascii_of_string "la'o")) as [E|_]; [destruct H; rewrite E; cbn; auto|].
    rewrite H0. cbn [obind]. exists (set_bad st). destruct H1 as [<-|[<-|[]]]; (split; [reflexivity|]); (split; [exact Hs|]); unfold grown; cbn; rewrite orb_true_r; auto.
  - assert (Q : ~ quoter w) by (intros [->| ->]; apply H; cbn; auto). assert (A : accepted (sc_type r)) by (rewrite H1; repeat split; discriminate).
    destruct (word_tokens cult w r l c st fuel Hs Q H0 A) as (front & lastp & ts' & b' & Sp & K). rewrite H1 in K. cbn in K. destruct K as (_ & T & K).
    rewrite (split_once _ _ _ _ Sp H2) in T. destruct (cmavo_tokens_once _ _ _ _ T _ _ H4) as [-> ->]. eexists. split; [exact K|]. split; [exact Hs|]. apply grown_plus.
  - assert (Q : ~ quoter w) by (intros [->| ->]; apply H; cbn; auto). assert (A : accepted (sc_type r)) by (unfold accepted; destruct (sc_type r); try discriminate; repeat split; discriminate).
    destruct (word_tokens cult w r l c st fuel Hs Q H0 A) as (front' & lastp' & ts' & b' & Sp & K). change (ty_of (sc_type r)) with (brivla_kind (sc_type r)) in K. rewrite H1 in K. destruct K as (T & K).
    destruct (app_inj_tail _ _ _ _ (split_once _ _ _ _ Sp H2)) as [-> ->]. destruct (cmavo_tokens_once _ _ _ _ T _ _ H3) as [-> ->].
    eexists. split; [exact K|]. split; [exact Hs|]. apply grown_plus.
  - pose proof Hs as [H4 H5]. cbn [process_word]. rewrite H4, H5.
    destruct (list_eq_dec ascii_dec w (list_ascii_of_string "zoi")) as [E|_]; [destruct H; rewrite E; cbn; auto|].
    destruct (list_eq_dec ascii_dec w (list_ascii_of_string "la'o")) as [E|_]; [destruct H; rewrite E; cbn; auto|].
    rewrite H0. cbn [obind]. destruct (cmene_is cult w r H0 H1) as (i & Ci & Bi). rewrite H1, Ci.
    destruct (name_checked w i Bi) as (i' & A & Ei). unfold name_answer in A. destruct (tail i').
    { destruct A as (? & ? & ? & ? & A & _). now apply H2 in A. }
    destruct A as (_ & _ & A). apply A in H3. rewrite Ei. cbn [imap is_bad]. rewrite H3. eexists. split; [reflexivity|]. split; [exact Hs|].
    unfold grown, tok3. cbn. rewrite orb_false_r. auto.
  - destruct (marked_short _ _ _ _ H2) as (L1 & L2 & L3 & Nm & Nr).
    rewrite (marked_word cult w r pre m rest fuel l c st H0 H1 H2 H4 H Hs).
    destruct (IHS1 fuel st H3 ltac:(lia) Hs) as (st1 & E1 & K1 & G1). destruct pre as [|x pre]; [congruence|]. rewrite E1. cbn [obind].
    destruct (IHS2 fuel st1 Nm ltac:(lia) K1) as (st2 & E2 & K2 & G2). rewrite E2. cbn [obind].
    destruct (IHS3 fuel st2 Nr ltac:(lia) K2) as (st3 & E3 & K3 & G3). exists st3. split; [exact E3|]. split; [exact K3|].
    rewrite app_assoc. apply (grown_trans _ _ _ st2); [|exact G3]. now apply (grown_trans _ _ _ st1).
  - destruct (marked_short _ _ _ _ H2) as (L1 & L2 & L3 & Nm & Nr).
    rewrite (marked_word cult w r [] m rest fuel l c st H0 H1 H2 H3 H Hs). cbn [obind length app]. rewrite N.add_0_r.
    destruct (IHS1 fuel st Nm ltac:(lia) Hs) as (st2 & E2 & K2 & G2). rewrite E2. cbn [obind].
    destruct (IHS2 fuel st2 Nr ltac:(lia) K2) as (st3 & E3 & K3 & G3). exists st3. split; [exact E3|]. split; [exact K3|]. now apply (grown_trans _ _ _ st2).
Qed.
Definition within (cs : list call) : Prop := Forall (fun x => match x with Call w _ _ => N.of_nat (length w) < 65536 | Line => True end) cs.
Lemma says_run cult q cs o b q' : says_all cult q cs o b q' -> forall st, whole cs -> within cs -> holds q st -> exists st', run cult cs st = Ok st' /\ holds q' st'
  /\ feed_out o (lx_toks st, lx_eols0 st) = (lx_toks st', lx_eols0 st') /\ lx_bad st' = lx_bad st || b.
Proof.
  induction 1; intros st Wh Wi Hs.
  - exists st. repeat split; auto. now rewrite orb_false_r.
  - inversion Wh; inversion Wi; subst. destruct (IHsays_all (mark_eol st)) as (st' & E & Q & F & B); auto.
    { unfold mark_eol; destruct (lx_toks st) as [|[n e] r]; destruct q; exact Hs. }
    exists st'. split; [exact E|]. split; [exact Q|]. split; [|rewrite B; unfold mark_eol; destruct (lx_toks st) as [|[n e] r]; reflexivity].
    cbn [feed_out fst snd]. unfold mark_eol in F. destruct (lx_toks st) as [|[n e] r]; exact F.
  - inversion Wh as [|? ? Hw Wh']; inversion Wi as [|? ? Hl Wi']; subst. cbv beta iota in Hw, Hl. destruct Hw as [Nw Cw].
    cbn [run]. rewrite Cw. apply N.leb_gt in Hl. rewrite Hl. unfold word.
    destruct (says_word _ _ _ _ _ _ _ _ H (S (length w)) st Nw ltac:(lia) Hs) as (st1 & -> & K & G1 & G2 & G3). cbn [obind].
    destruct (IHsays_all st1 Wh' Wi' K) as (st' & E & Q & F & B). exists st'. split; [exact E|]. split; [exact Q|].
    rewrite feed_app, feed_toks, <- G1, <- G2. split; [exact F|]. now rewrite B, G3, orb_assoc.
Qed.
Lemma says_text cult is e o b q k : Forall proper is -> no_nul (written is) -> (length (written is) < k)%nat ->
  reads 1 1 is e -> within (calls None e) -> says_all cult Plain (calls None e) o b q ->
  exists st', parse_file k cult (written is) lexer0 = Ok st'
    /\ rev (lx_toks st') = map tok4 (snd (counted o)) /\ lx_eols0 st' = fst (counted o) /\ lx_bad st' = b || in_quote q.
Proof.
  intros P Z L R Wi S. rewrite (parse_reads cult is e lexer0 k P R L). change (r_lex (reader0 lexer0)) with lexer0.
  destruct (says_run _ _ _ _ _ _ S lexer0 (reads_whole _ _ _ _ R Z None) Wi (conj eq_refl eq_refl)) as (st1 & -> & H & F & B). cbn [obind].
  exists (ended st1). split; [reflexivity|]. cbn [lx_toks lx_eols0 lexer0] in F. rewrite feed_counted in F. injection F as F1 F2.
  assert (T : lx_toks (ended st1) = lx_toks st1 /\ lx_eols0 (ended st1) = lx_eols0 st1) by (unfold ended; destruct (zoi_data st1); auto). destruct T as [-> ->].
  rewrite app_nil_r in F1. rewrite <- F1, <- F2, rev_involutive. split; [reflexivity|]. split; [reflexivity|].
  unfold ended. cbn [lexer0 lx_bad orb] in B. destruct q; cbn [holds] in H; destruct H as [-> _]; cbn [in_quote set_bad lx_bad]; rewrite ?orb_false_r, ?orb_true_r; auto.
Qed.
