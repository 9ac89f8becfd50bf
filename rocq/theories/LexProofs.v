(* Reading a text: the loop of parse_file against the specification. *)
From Coq Require Import String Ascii List NArith ZArith Bool Arith Lia.
From Verif Require Import Base TokData TokModel MorfModel LexModel LexSpec.
From Verif Require LujvoProofs.
Import ListNotations.
Open Scope N_scope.
Open Scope list_scope.

(* the calls, one after the other *)
Fixpoint run (cult : bool) (cs : list call) (st : lexer) : outcome lexer :=
  match cs with
  | [] => Ok st
  | Call w l c :: cs =>
      if 65536 <=? N.of_nat (List.length w) then UB UB_bounds
      else do st <- word cult (cstring w) l c st; run cult cs st
  | Line :: cs => run cult cs (mark_eol st)
  end.

(* ---- characters ---- *)
Definition char_facts (c : ascii) : bool :=
  Bool.eqb (separator c) (space c || Ascii.eqb c "(") &&
  match numeral c with
  | None => match digit_value c with None => negb (Ascii.eqb c ":") | Some _ => false end
  | Some w => negb (separator c) &&
              match digit_value c with None => Ascii.eqb c ":" && String.eqb w "pi'e" | Some n => String.eqb w (nth n numbers ""%string) end
  end.
Lemma char_fact c : char_facts c = true.
Proof. apply LujvoProofs.by_chars. vm_compute. reflexivity. Qed.
Lemma sep_space c : separator c = space c || Ascii.eqb c "(".
Proof. pose proof (char_fact c) as H. unfold char_facts in H. apply andb_true_iff in H. destruct H as [H _]. now apply Bool.eqb_prop in H. Qed.
Lemma not_number c : numeral c = None -> digit_value c = None /\ Ascii.eqb c ":" = false.
Proof.
  pose proof (char_fact c) as H. unfold char_facts in H. apply andb_true_iff in H. destruct H as [_ H]. intro E. rewrite E in H.
  destruct (digit_value c); [discriminate|]. split; [reflexivity|]. now apply negb_true_iff.
Qed.
Lemma number c w : numeral c = Some w ->
  separator c = false /\ ((exists n, digit_value c = Some n /\ nth n numbers ""%string = w) \/ digit_value c = None /\ Ascii.eqb c ":" = true /\ w = "pi'e"%string).
Proof.
  pose proof (char_fact c) as H. unfold char_facts in H. apply andb_true_iff in H. destruct H as [_ H]. intro E. rewrite E in H.
  apply andb_true_iff in H. destruct H as [H1 H2]. apply negb_true_iff in H1. split; [exact H1|].
  destruct (digit_value c) as [n|].
  - left. exists n. apply String.eqb_eq in H2. auto.
  - right. apply andb_true_iff in H2. destruct H2 as [H2 H3]. apply String.eqb_eq in H3. auto.
Qed.

(* ---- single turns ---- *)
Definition rd (st : lexer) (b : list ascii) (l c sl sc : N) (nt : bool) (d : N) : reader := Reader st b l c sl sc nt d.
Lemma loop_S fuel cult t r : read_loop (S fuel) cult t r =
  do x <- turn cult (match t with [] => None | c :: _ => Some c end) r;
  match x with inr r => Ok r | inl r => read_loop fuel cult (tl t) r end.
Proof. reflexivity. Qed.
Lemma turn_word cult x st b l c sl sc nt : word_char x -> N.of_nat (length b) < 65536 ->
  turn cult (Some x) (Reader st b l c sl sc nt 0) =
  Ok (inl (Reader st (x :: b) l (c + 1) (if nt then l else sl) (if nt then c + 1 else sc) false 0)).
Proof.
  intros (S & Nn & P) L. unfold turn, next_col. cbn [depth]. destruct (N.ltb_spec 0 0); [lia|].
  destruct (not_number x Nn) as [-> ->]. rewrite sep_space, S. cbn [orb]. destruct (Ascii.eqb_spec x "("); [contradiction|].
  unfold set_start. cbn [new_tok]. destruct nt; unfold push; cbn [buffer r_lex line_no column start_line start_col new_tok depth];
    (destruct (N.leb_spec 65536 (N.of_nat (length b))); [lia|]); reflexivity.
Qed.
Lemma turn_full cult x st b l c sl sc nt : word_char x -> 65536 <= N.of_nat (length b) ->
  turn cult (Some x) (Reader st b l c sl sc nt 0) = UB UB_bounds.
Proof.
  intros (S & Nn & P) L. unfold turn, next_col. cbn [depth]. destruct (N.ltb_spec 0 0); [lia|].
  destruct (not_number x Nn) as [-> ->]. rewrite sep_space, S. cbn [orb]. destruct (Ascii.eqb_spec x "("); [contradiction|].
  unfold set_start. cbn [new_tok]. destruct nt; unfold push; cbn [buffer r_lex line_no column start_line start_col new_tok depth];
    (destruct (N.leb_spec 65536 (N.of_nat (length b))); [|lia]); reflexivity.
Qed.
(* the rest of a word *)
Lemma feed cult w : forall st b l c sl sc k t, Forall word_char w ->
  read_loop (length w + k) cult (w ++ t) (Reader st b l c sl sc false 0) =
  if (65536 <? N.of_nat (length b + length w)) && negb (length w =? 0)%nat then UB UB_bounds
  else read_loop k cult t (Reader st (rev w ++ b) l (c + N.of_nat (length w)) sl sc false 0).
Proof.
  induction w as [|x w IH]; intros st b l c sl sc k t H.
  - cbn [length Nat.add app rev Nat.eqb negb]. rewrite andb_false_r. f_equal. f_equal. lia.
  - inversion H as [|? ? Hx Hw]; subst. cbn [length Nat.add app]. rewrite loop_S. cbn [tl].
    destruct (N.lt_ge_cases (N.of_nat (length b)) 65536) as [L|L].
    + rewrite (turn_word cult x st b l c sl sc false Hx L). cbn [obind]. rewrite IH by exact Hw. cbn [length Nat.eqb negb rev]. rewrite andb_true_r.
      replace (S (length b) + length w)%nat with (length b + S (length w))%nat by lia.
      destruct w as [|z w].
      * cbn [length Nat.eqb negb]. rewrite andb_false_r. destruct (N.ltb_spec 65536 (N.of_nat (length b + 1))); [lia|]. cbn [rev app].
        f_equal. f_equal. lia.
      * cbn [length Nat.eqb negb]. rewrite andb_true_r. destruct (65536 <? N.of_nat (length b + S (S (length w)))); [reflexivity|].
        rewrite <- app_assoc. cbn [app]. f_equal. f_equal. lia.
    + rewrite (turn_full cult x st b l c sl sc false Hx L). cbn [obind Nat.eqb negb]. rewrite andb_true_r.
      destruct (N.ltb_spec 65536 (N.of_nat (length b + S (length w)))); [reflexivity|lia].
Qed.

(* ---- a word is closed before anything else is done ---- *)
Lemma close_next cult r : close_token cult (next_col r) = do r' <- close_token cult r; Ok (next_col r').
Proof.
  unfold close_token, next_col. destruct r as [st b l c sl sc nt d]. cbn [buffer r_lex start_line start_col line_no column new_tok depth].
  destruct (65536 <=? N.of_nat (length b)); [reflexivity|]. destruct b as [|x b]; [reflexivity|].
  destruct (word cult (cstring (rev (x :: b))) sl sc st); reflexivity.
Qed.
Lemma close_twice cult r r' : close_token cult r = Ok r' -> close_token cult r' = Ok r' /\ depth r' = depth r /\ buffer r' = [].
Proof.
  unfold close_token. destruct r as [st b l c sl sc nt d]. cbn [buffer r_lex start_line start_col line_no column new_tok depth].
  destruct (65536 <=? N.of_nat (length b)); [discriminate|]. destruct b as [|x b].
  - intro H. injection H as <-. cbn. auto.
  - destruct (word cult (cstring (rev (x :: b))) sl sc st); try discriminate. cbn [obind]. intro H. injection H as <-. cbn. auto.
Qed.
Definition boundary (c : option ascii) : Prop := match c with None => True | Some c => separator c = true \/ numeral c <> None end.
Lemma abbr_close cult w r : abbreviation cult w r = do r' <- close_token cult r; abbreviation cult w r'.
Proof.
  unfold abbreviation. destruct (close_token cult r) as [r'| | | |] eqn:E; try reflexivity. cbn [obind].
  apply close_twice in E. destruct E as [-> _]. reflexivity.
Qed.
Lemma turn_boundary cult c r : depth r = 0 -> boundary c -> turn cult c r = do r' <- close_token cult r; turn cult c r'.
Proof.
  intros D B. pose proof (close_next cult r) as CN.
  assert (turn cult c r = let r := next_col r in
    match c with
    | None => do r <- close_token cult r; Ok (inr r)
    | Some c =>
        match digit_value c with
        | Some n => do r <- abbreviation cult (nth n numbers ""%string) r; Ok (inl r)
        | None =>
            if Ascii.eqb c ":" then do r <- abbreviation cult "pi'e" r; Ok (inl r)
            else if separator c then
              do r <- close_token cult r;
              let r := if Ascii.eqb c newline then next_line (with_lex (mark_eol (r_lex r)) r) else r in
              Ok (inl (if Ascii.eqb c "(" then with_depth 1 false r else r))
            else do r <- push c (set_start r); Ok (inl r)
        end
    end) as ->.
  { unfold turn. cbv zeta. assert (depth (next_col r) = 0) as -> by exact D. reflexivity. }
  cbv zeta.
  assert (T : forall r', close_token cult r = Ok r' -> depth (next_col r') = 0 /\ close_token cult (next_col r') = Ok (next_col r')).
  { intros r' E. apply close_twice in E. destruct E as (E1 & E2 & E3). cbn [next_col depth]. split; [congruence|]. rewrite close_next, E1. reflexivity. }
  destruct c as [c|].
  - destruct (digit_value c) as [n|] eqn:Dg.
    { rewrite abbr_close. rewrite CN. destruct (close_token cult r) as [r'| | | |] eqn:E; try reflexivity. cbn [obind].
      unfold turn. destruct (T r' eq_refl) as [-> _]. cbn [N.ltb N.compare]. rewrite Dg. reflexivity. }
    destruct (Ascii.eqb c ":") eqn:Co.
    { rewrite abbr_close. rewrite CN. destruct (close_token cult r) as [r'| | | |] eqn:E; try reflexivity. cbn [obind].
      unfold turn. destruct (T r' eq_refl) as [-> _]. cbn [N.ltb N.compare]. rewrite Dg, Co. reflexivity. }
    destruct B as [B|B].
    + rewrite B. rewrite CN. destruct (close_token cult r) as [r'| | | |] eqn:E; try reflexivity. cbn [obind].
      unfold turn. destruct (T r' eq_refl) as [-> T2]. cbn [N.ltb N.compare]. rewrite Dg, Co, B, T2. reflexivity.
    + exfalso. destruct (numeral c) as [w|] eqn:Nw; [|congruence]. apply number in Nw. destruct Nw as (_ & [(n & Q & _)|(_ & Q & _)]); congruence.
  - rewrite CN. destruct (close_token cult r) as [r'| | | |] eqn:E; try reflexivity. cbn [obind].
    unfold turn. destruct (T r' eq_refl) as [-> T2]. cbn [N.ltb N.compare]. rewrite T2. reflexivity.
Qed.
Definition first (t : list ascii) : option ascii := match t with [] => None | c :: _ => Some c end.
Lemma loop_boundary cult k t r : depth r = 0 -> boundary (first t) ->
  read_loop (S k) cult t r = do r' <- close_token cult r; read_loop (S k) cult t r'.
Proof.
  intros D B. rewrite loop_S. change (match t with [] => None | c :: _ => Some c end) with (first t).
  rewrite (turn_boundary cult _ r D B). destruct (close_token cult r); reflexivity.
Qed.

(* ---- comments ---- *)
Lemma past_app t1 : forall l c t2, past l c (t1 ++ t2) = let '(l', c') := past l c t1 in past l' c' t2.
Proof. induction t1 as [|x t1 IH]; intros l c t2; [reflexivity|]. cbn [app past]. destruct (Ascii.eqb x nl); apply IH. Qed.
Lemma past_positive t : forall l c, 1 <= c -> 1 <= snd (past l c t).
Proof. induction t as [|x t IH]; intros l c H; [exact H|]. cbn [past]. destruct (Ascii.eqb x nl); apply IH; lia. Qed.
Lemma comment cult a : inside a -> forall st b l c sl sc nt d k t, 0 < d ->
  exists nt', read_loop (length a + k) cult (a ++ t) (Reader st b l c sl sc nt d) =
  read_loop k cult t (Reader st b (fst (past l (c + 1) a)) (snd (past l (c + 1) a) - 1) sl sc nt' d).
Proof.
  induction 1 as [|x a P1 P2 _ IH|a1 a2 _ IH1 _ IH2]; intros st b l c sl sc nt d k t D.
  - exists nt. cbn [length Nat.add app past fst snd]. f_equal. f_equal. lia.
  - cbn [length Nat.add app]. rewrite loop_S. unfold turn, next_col. cbn [depth tl]. destruct (N.ltb_spec 0 d); [|lia].
    destruct (Ascii.eqb_spec x ")"); [contradiction|]. destruct (Ascii.eqb_spec x "("); [contradiction|].
    cbn [past]. change newline with nl. destruct (Ascii.eqb x nl); cbn [obind]; unfold next_line; cbn [r_lex buffer line_no column start_line start_col new_tok depth].
    + apply IH. exact D.
    + apply IH. exact D.
  - replace (length ("("%char :: a1 ++ ")"%char :: a2) + k)%nat with (S (length a1 + S (length a2 + k)))%nat by (cbn [length]; rewrite app_length; cbn [length]; lia).
    cbn [app]. rewrite <- app_assoc. cbn [app]. rewrite loop_S. unfold turn at 1, next_col. cbn [depth tl]. destruct (N.ltb_spec 0 d); [|lia].
    cbn [Ascii.eqb Bool.eqb]. cbn [obind]; unfold with_depth; cbn [r_lex buffer line_no column start_line start_col new_tok depth orb].
    destruct (IH1 st b l (c + 1) sl sc nt (d + 1) (S (length a2 + k)) (")"%char :: a2 ++ t) ltac:(lia)) as [nt1 ->].
    rewrite loop_S. unfold turn at 1, next_col. cbn [depth tl]. destruct (N.ltb_spec 0 (d + 1)); [|lia].
    cbn [Ascii.eqb Bool.eqb]. cbn [obind]; unfold with_depth; cbn [r_lex buffer line_no column start_line start_col new_tok depth orb].
    replace (d + 1 - 1) with d by lia.
    destruct (IH2 st b (fst (past l (c + 1 + 1) a1)) (snd (past l (c + 1 + 1) a1) - 1 + 1) sl sc true d k t D) as [nt2 ->].
    exists nt2. f_equal. cbn [past]. change (Ascii.eqb "(" nl) with false. cbv iota. rewrite past_app.
    pose proof (past_positive a1 l (c + 1 + 1) ltac:(lia)). destruct (past l (c + 1 + 1) a1) as [l1 c1]. cbn [fst snd past] in *.
    change (Ascii.eqb ")" nl) with false. cbv iota. replace (c1 - 1 + 1 + 1) with (c1 + 1) by lia. reflexivity.
Qed.

(* ---- the whole text ---- *)
Definition kept_of (r : reader) : option (N * N) := if new_tok r then None else Some (start_line r, start_col r).
Lemma written_app a b : written (a ++ b) = written a ++ written b.
Proof. unfold written. now rewrite map_app, concat_app. Qed.
Lemma written_chars w : written (map Ch w) = w.
Proof. unfold written. induction w as [|x w IH]; [reflexivity|]. cbn. now rewrite IH. Qed.
Lemma run_calls cult l c is e : reads l c is e -> Forall proper is -> forall st b sl sc nt k, b = [] -> 1 <= c ->
  (do r <- read_loop (length (written is) + S k) cult (written is) (Reader st b l (c - 1) sl sc nt 0); Ok (r_lex r)) =
  run cult (calls (if nt then None else Some (sl, sc)) e) st.
Proof.
  induction 1 as [l c|l c a is e l' c' P R IH|l c x is e Sx Nx R IH|l c is e R IH|l c x w is e Nw R IH|l c w is e Ne W Nb R IH];
    intros Pr st b sl sc nt k -> Hc.
  - cbn [written map concat length Nat.add calls run]. rewrite loop_S. unfold turn, next_col. cbn [depth N.ltb N.compare].
    unfold close_token. cbn [buffer length N.of_nat N.leb N.compare]. cbn. reflexivity.
  - inversion Pr as [|? ? Pa Pis]; subst. cbn [proper] in Pa. specialize (IH Pis).
    change (written (Note a :: is)) with (item_text (Note a) ++ written is). cbn [item_text]. cbn [app]. rewrite <- app_assoc. cbn [app].
    replace (length ("("%char :: a ++ ")"%char :: written is) + S k)%nat with (S (length a + S (length (written is) + S k)))%nat
      by (cbn [length]; rewrite app_length; cbn [length]; lia).
    rewrite loop_S. unfold turn at 1, next_col. cbn [r_lex buffer line_no column start_line start_col new_tok depth N.ltb N.compare tl]. change (digit_value "(") with (@None nat). cbv iota.
    change (Ascii.eqb "(" ":") with false. cbv iota. change (separator "(") with true. cbv iota. unfold close_token at 1.
    cbn [buffer length N.of_nat N.leb N.compare]. cbn [obind]. change (Ascii.eqb "(" newline) with false. change (Ascii.eqb "(" "(") with true. cbv iota zeta.
    unfold with_depth; cbn [r_lex buffer line_no column start_line start_col new_tok depth orb].
    destruct (comment cult a Pa st [] l (c - 1 + 1) sl sc nt 1 (S (length (written is) + S k)) (")"%char :: written is) ltac:(lia)) as [nt1 ->].
    rewrite loop_S. unfold turn at 1, next_col. cbn [depth tl]. cbn [N.ltb N.compare].
    cbn [Ascii.eqb Bool.eqb]. cbn [obind]; unfold with_depth; cbn [r_lex buffer line_no column start_line start_col new_tok depth orb].
    cbn [calls].
    cbn [item_text past] in P. change (Ascii.eqb "(" nl) with false in P. cbv iota in P. rewrite past_app in P.
    replace (c - 1 + 1 + 1) with (c + 1) by lia. pose proof (past_positive a l (c + 1) ltac:(lia)) as Q.
    destruct (past l (c + 1) a) as [l1 c1]. cbn [fst snd] in *. cbn [past] in P. change (Ascii.eqb ")" nl) with false in P. cbv iota in P.
    injection P as <- <-. change (1 - 1) with 0. replace (c1 - 1 + 1) with (c1 + 1 - 1) by lia.
    exact (IH st [] sl sc true k eq_refl ltac:(lia)).
  - inversion Pr as [|? ? Px Pis]; subst. specialize (IH Pis). cbn [written map concat item_text app length Nat.add]. fold (written is).
    rewrite loop_S. unfold turn at 1, next_col. cbn [r_lex buffer line_no column start_line start_col new_tok depth N.ltb N.compare tl].
    assert (numeral x = None) as Nn.
    { destruct (numeral x) as [w|] eqn:E; [|reflexivity]. apply number in E. destruct E as [E _]. rewrite sep_space, Sx in E. discriminate. }
    destruct (not_number x Nn) as [-> ->]. rewrite sep_space, Sx. cbn [orb]. unfold close_token at 1.
    cbn [buffer length N.of_nat N.leb N.compare]. cbn [obind]. change newline with nl. destruct (Ascii.eqb_spec x nl); [contradiction|].
    cbn [proper] in Px. destruct (Ascii.eqb_spec x "("); [contradiction|]. replace (c - 1 + 1) with (c + 1 - 1) by lia.
    exact (IH st [] sl sc nt k eq_refl ltac:(lia)).
  - inversion Pr as [|? ? Px Pis]; subst. specialize (IH Pis). cbn [written map concat item_text app length Nat.add]. fold (written is).
    rewrite loop_S. unfold turn at 1, next_col. cbn [r_lex buffer line_no column start_line start_col new_tok depth N.ltb N.compare tl]. change (digit_value nl) with (@None nat). cbv iota.
    change (Ascii.eqb nl ":") with false. change (separator nl) with true. cbv iota. unfold close_token at 1.
    cbn [buffer length N.of_nat N.leb N.compare]. cbn [obind]. change (Ascii.eqb nl newline) with true. change (Ascii.eqb nl "(") with false. cbv iota zeta.
    unfold next_line, with_lex; cbn [r_lex buffer line_no column start_line start_col new_tok depth calls run].
    exact (IH (mark_eol st) [] sl sc nt k eq_refl ltac:(lia)).
  - inversion Pr as [|? ? Px Pis]; subst. specialize (IH Pis). cbn [written map concat item_text app length Nat.add]. fold (written is).
    rewrite loop_S. unfold turn at 1, next_col. cbn [r_lex buffer line_no column start_line start_col new_tok depth N.ltb N.compare tl].
    assert (A : forall r, (do r0 <- (do r <- abbreviation cult w (Reader st [] l (c - 1 + 1) sl sc nt 0); Ok (inl r : reader + reader));
       match r0 with inl r => read_loop (length (written is) + S k) cult (written is) r | inr r => Ok r end) = r ->
       (do r <- r; Ok (r_lex r)) = run cult (calls (if nt then None else Some (sl, sc)) (Number w l c :: e)) st).
    { intros r <-. unfold abbreviation, close_token. cbn [buffer length N.of_nat N.leb N.compare]. cbn [obind].
      unfold set_start. cbn [new_tok]. replace (c - 1 + 1) with c by lia. cbn [calls run].
      assert (W : (65536 <=? N.of_nat (length (list_ascii_of_string w))) = false /\ cstring (list_ascii_of_string w) = list_ascii_of_string w).
      { assert (In w (numbers ++ ["pi'e"%string])) as I.
        { apply number in Nw. destruct Nw as (_ & [(n & Dn & <-)|(_ & _ & ->)]); [|apply in_or_app; right; left; reflexivity].
          apply in_or_app. left. apply nth_In. unfold digit_value in Dn. destruct (Nat.leb 48 (nat_of_ascii x) && Nat.leb (nat_of_ascii x) 57)%nat eqn:Q; [|discriminate].
          apply andb_true_iff in Q. destruct Q as [Q1 Q2]. apply Nat.leb_le in Q1, Q2. injection Dn as <-. change (length numbers) with 10%nat. lia. }
        assert (forallb (fun w => (65536 <=? N.of_nat (length (list_ascii_of_string w))) || negb (if list_eq_dec ascii_dec (cstring (list_ascii_of_string w)) (list_ascii_of_string w) then true else false)) (numbers ++ ["pi'e"%string]) = false \/ True) as _ by auto.
        cbn [numbers app] in I. repeat (destruct I as [<-|I]; [split; reflexivity|]). destruct I. }
      destruct W as [W1 W2]. rewrite W1, W2.
      destruct nt; cbn [r_lex start_line start_col line_no column depth buffer fst snd];
        (destruct (word cult (list_ascii_of_string w) _ _ st) as [st'| | | |]; try reflexivity); cbn [obind]; unfold with_lex; cbn [r_lex buffer line_no column start_line start_col new_tok depth].
      - pose proof (IH st' [] l c false k eq_refl ltac:(lia)) as Q. replace (c + 1 - 1) with c in Q by lia. exact Q.
      - pose proof (IH st' [] sl sc false k eq_refl ltac:(lia)) as Q. replace (c + 1 - 1) with c in Q by lia. exact Q. }
    pose proof (number x w Nw) as (_ & [(n & Dn & En)|(Dn & Co & ->)]).
    + rewrite Dn, En. now rewrite <- (A _ eq_refl).
    + rewrite Dn, Co. now rewrite <- (A _ eq_refl).
  - apply Forall_app in Pr. destruct Pr as [_ Pis]. specialize (IH Pis). rewrite written_app, written_chars.
    destruct w as [|x w]; [congruence|]. inversion W as [|? ? Wx Ww]; subst. rewrite app_length. cbn [length Nat.add app].
    rewrite loop_S. rewrite (turn_word cult x st [] l (c - 1) sl sc nt Wx) by (cbn; lia). cbn [obind tl].
    replace (length w + length (written is) + S k)%nat with (length w + (length (written is) + S k))%nat by lia.
    rewrite feed by exact Ww. cbn [length]. replace (1 + length w)%nat with (S (length w)) by lia.
    cbn [calls run]. cbn [length].
    destruct ((65536 <? N.of_nat (S (length w))) && negb (length w =? 0)%nat) eqn:Big.
    { apply andb_true_iff in Big. destruct Big as [Big _]. apply N.ltb_lt in Big. destruct (N.leb_spec 65536 (N.of_nat (S (length w)))); [reflexivity|lia]. }
    assert (length (written is) + S k = S (length (written is) + k))%nat as -> by lia.
    rewrite loop_boundary; [|reflexivity|].
    2:{ destruct is as [|i is]; [exact I|]. specialize (Nb i is eq_refl). inversion Pis as [|? ? Pi _]; subst.
        destruct i as [z|a]; cbn [written map concat item_text app first boundary]; [|left; reflexivity].
        cbn [word_item] in Nb. unfold word_char in Nb. rewrite sep_space. destruct (space z); [left; reflexivity|]. right. intro Q. apply Nb. cbn [proper] in Pi. auto. }
    unfold close_token. cbn [buffer]. rewrite app_length, rev_length. cbn [length]. replace (length w + 1)%nat with (S (length w)) by lia.
    destruct (65536 <=? N.of_nat (S (length w))); [reflexivity|].
    assert (rev (rev w ++ [x]) = x :: w) as E by (rewrite rev_app_distr, rev_involutive; reflexivity).
    destruct (rev w ++ [x]) as [|z zs] eqn:EZ; [destruct (rev w); discriminate|]. rewrite E.
    cbn [r_lex start_line start_col line_no column depth buffer fst snd].
    replace (c - 1 + 1) with c by lia.
    assert ((if nt then l else sl) = fst (match (if nt then None else Some (sl, sc)) with Some p => p | None => (l, c) end)) as -> by (destruct nt; reflexivity).
    assert ((if nt then c else sc) = snd (match (if nt then None else Some (sl, sc)) with Some p => p | None => (l, c) end)) as -> by (destruct nt; reflexivity).
    set (pl := match (if nt then None else Some (sl, sc)) with Some p => p | None => (l, c) end).
    destruct (word cult (cstring (x :: w)) (fst pl) (snd pl) st) as [st'| | | |]; try reflexivity. cbn [obind].
    replace (c + N.of_nat (length w)) with (c + N.of_nat (length (x :: w)) - 1) by (cbn [length]; lia).
    replace (S (length (written is) + k)) with (length (written is) + S k)%nat by lia.
    exact (IH st' [] (fst pl) (snd pl) true k eq_refl ltac:(lia)).
Qed.
