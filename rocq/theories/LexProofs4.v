(* cmavo: the look-up, and the pieces of a word. *)
From Coq Require Import String Ascii List NArith ZArith Bool Arith Lia.
From Verif Require Import Base TokData CmavoData TokModel LujvoSpec MorfModel MorfSpec LexModel LexSpec.
From Verif Require LujvoProofs MorfProofs6.
Import ListNotations.
Open Scope N_scope.
Open Scope list_scope.

Definition cell_ok (x : N * string * tok) : bool :=
  let '(code, w, s) := x in
  match hash_cmavo (list_ascii_of_string w) with
  | Ok h => if Z.eqb h (Z.of_N code) then if code <=? 1750 then
      match cmavo_cell code with Some (w', s') => if String.eqb w' w then tok_eqb s' s else false | None => false end
      else false else false
  | _ => false
  end.
Lemma cells_checked : forallb cell_ok cmavo_cells = true.
Proof. vm_compute. reflexivity. Qed.
Lemma tok_same a b : tok_eqb a b = true -> a = b.
Proof. destruct a, b; try discriminate; reflexivity. Qed.

Lemma listed_cell w code s : listed w code s -> hash_cmavo w = Ok (Z.of_N code) /\ code <= 1750 /\ cmavo_cell code = Some (string_of_list_ascii w, s).
Proof.
  intro H. pose proof cells_checked as C. rewrite forallb_forall in C. specialize (C _ H). unfold cell_ok in C.
  rewrite list_ascii_of_string_of_list_ascii in C.
  destruct (hash_cmavo w) as [h| | | |]; try discriminate. destruct (Z.eqb_spec h (Z.of_N code)) as [E|]; [subst h|discriminate].
  destruct (N.leb_spec code 1750); [|discriminate]. destruct (cmavo_cell code) as [[w' s']|]; [|discriminate].
  destruct (String.eqb_spec w' (string_of_list_ascii w)) as [->|]; [|discriminate]. apply tok_same in C. subst s'. auto.
Qed.
Lemma found_listed buf h : hash_cmavo buf = Ok h -> forall code s, cmavo_found h buf = Some (code, s) <-> listed buf code s.
Proof.
  intros H code s. split.
  - unfold cmavo_found. destruct (Z.leb_spec 0 h); [|discriminate]. destruct (Z.leb_spec h 1750); [|discriminate]. cbn [andb].
    unfold cmavo_cell. destruct (find _ cmavo_cells) as [[[c w] t]|] eqn:F; [|discriminate]. apply find_some in F. cbn [fst snd] in F. destruct F as [F1 F2].
    destruct (String.eqb_spec (string_of_list_ascii buf) w) as [Ew|]; [|discriminate]. intro E. injection E as <- <-. apply N.eqb_eq in F2. subst c. unfold listed. rewrite Ew. exact F1.
  - intro L. apply listed_cell in L. destruct L as (L1 & L2 & L3). rewrite H in L1. injection L1 as ->. unfold cmavo_found.
    destruct (Z.leb_spec 0 (Z.of_N code)); [|lia]. destruct (Z.leb_spec (Z.of_N code) 1750); [|lia]. cbn [andb]. rewrite N2Z.id, L3, String.eqb_refl. reflexivity.
Qed.
Lemma listed_once w code s code' s' : listed w code s -> listed w code' s' -> code = code' /\ s = s'.
Proof.
  intros H1 H2. apply listed_cell in H1, H2. destruct H1 as (A1 & _ & B1), H2 as (A2 & _ & B2). rewrite A1 in A2. injection A2 as E.
  apply N2Z.inj in E. subst code'. rewrite B1 in B2. injection B2 as ->. auto.
Qed.
Lemma listed_here code w s w' s' : In (code, w, s) cmavo_cells -> In (code, w', s') cmavo_cells -> w = w' /\ s = s'.
Proof.
  intros H1 H2. rewrite <- (string_of_list_ascii_of_string w) in H1. rewrite <- (string_of_list_ascii_of_string w') in H2.
  apply listed_cell in H1, H2. destruct H1 as (_ & _ & B1), H2 as (_ & _ & B2). rewrite !string_of_list_ascii_of_string in *. rewrite B1 in B2. injection B2 as -> ->. auto.
Qed.

(* ---- when the look-up reads only inside its tables ---- *)
Lemma quote_char c : quote c = true -> c = "'"%char.
Proof. apply Ascii.eqb_eq. Qed.
Lemma tabs_ok c : cmavo_char c = true -> quote c = false -> exists v1 v2, tab tab1 c = Ok v1 /\ tab tab2 c = Ok v2 /\ Ascii.eqb c "," = false.
Proof.
  intros H Q.
  pose proof (LujvoProofs.by_chars (fun c => if cmavo_char c then if quote c then true else match tab tab1 c, tab tab2 c with Ok _, Ok _ => negb (Ascii.eqb c ",") | _, _ => false end else true) ltac:(vm_compute; reflexivity) c) as K.
  cbv beta in K. rewrite H, Q in K. destruct (tab tab1 c) as [v1| | | |]; try discriminate. destruct (tab tab2 c) as [v2| | | |]; try discriminate.
  exists v1, v2. split; [reflexivity|]. split; [reflexivity|]. now apply negb_true_iff.
Qed.
Definition short_ones : list (list ascii) :=
  [] :: map (fun c => [c]) cmavo_chars ++ map (fun c => [c; "'"%char]) cmavo_chars
    ++ concat (map (fun a => map (fun b => [a; b; "'"%char]) cmavo_chars) cmavo_chars).
Lemma in_chars c : cmavo_char c = true -> In c cmavo_chars.
Proof. unfold cmavo_char. intro H. apply existsb_exists in H. destruct H as (x & H & E). apply Ascii.eqb_eq in E. now subst x. Qed.
Lemma hash_defined buf : forallb cmavo_char buf = true -> ~ In buf short_ones -> exists h, hash_cmavo buf = Ok h.
Proof.
  intros H N. destruct buf as [|a buf]; [destruct N; left; reflexivity|]. cbn [forallb] in H. apply andb_true_iff in H. destruct H as [Ha H].
  assert (N1 : buf <> []).
  { intros ->. apply N. right. apply in_or_app. left. apply in_map_iff. exists a. split; [reflexivity|now apply in_chars]. }
  destruct buf as [|b buf]; [congruence|]. clear N1. cbn [forallb] in H. apply andb_true_iff in H. destruct H as [Hb H].
  unfold hash_cmavo. cbn [cur tl]. destruct (quote a) eqn:Qa; [eauto|]. destruct (tabs_ok a Ha Qa) as (a1 & a2 & Ta1 & Ta2 & _). rewrite Ta1. cbn [obind].
  destruct (Z.ltb 0 a1).
  - cbn [cur tl]. destruct (quote b) eqn:Qb; [eauto|]. destruct (tabs_ok b Hb Qb) as (b1 & b2 & Tb1 & Tb2 & _). rewrite Tb2. cbn [obind].
    destruct buf as [|c buf]; [eauto|]. cbn [forallb] in H. apply andb_true_iff in H. destruct H as [Hc H]. cbn [cur tl].
    destruct (quote c) eqn:Qc; cbn [orb].
    + destruct buf as [|d buf].
      * exfalso. apply N. apply quote_char in Qc. subst c. right. apply in_or_app. right. apply in_or_app. right.
        apply in_concat. exists (map (fun z => [a; z; "'"%char]) cmavo_chars). split.
        -- apply in_map_iff. exists a. split; [reflexivity|now apply in_chars].
        -- apply in_map_iff. exists b. split; [reflexivity|now apply in_chars].
      * cbn [forallb cur] in *. apply andb_true_iff in H. destruct H as [Hd _]. destruct (quote d) eqn:Qd; [eauto|].
        destruct (tabs_ok d Hd Qd) as (d1 & d2 & _ & -> & _). cbn [obind]. eauto.
    + destruct (tabs_ok c Hc Qc) as (c1 & c2 & Tc1 & Tc2 & Tc3). rewrite Tc3. cbn [cur]. rewrite Qc, Tc2. cbn [obind]. eauto.
  - cbn [cur tl]. rewrite Qa, Ta2. cbn [obind]. cbn [cur tl].
    destruct (quote b) eqn:Qb; cbn [orb].
    + destruct buf as [|d buf].
      * exfalso. apply N. apply quote_char in Qb. subst b. right. apply in_or_app. right. apply in_or_app. left. apply in_map_iff. exists a. split; [reflexivity|now apply in_chars].
      * cbn [forallb cur] in *. apply andb_true_iff in H. destruct H as [Hd _]. destruct (quote d) eqn:Qd; [eauto|].
        destruct (tabs_ok d Hd Qd) as (d1 & d2 & _ & -> & _). cbn [obind]. eauto.
    + destruct (tabs_ok b Hb Qb) as (b1 & b2 & Tb1 & Tb2 & Tb3). rewrite Tb3. cbn [cur]. rewrite Qb, Tb2. cbn [obind]. eauto.
Qed.
Definition not_cmavo (cult : bool) (w : list ascii) : bool :=
  match morf_scan cult w with
  | Ok r => match sc_type r, sc_starts r with MT_CMAVOS, [O] => (match hash_cmavo w with Ok _ => true | _ => false end) | _, _ => true end
  | _ => true
  end.
Lemma short_checked : forallb (fun cult => forallb (not_cmavo cult) short_ones) [true; false] = true.
Proof. vm_compute. reflexivity. Qed.

Lemma hash_cmavo_word cult p : one_word cult MT_CMAVOS p -> forallb cmavo_char p = true -> exists h, hash_cmavo p = Ok h.
Proof.
  intros (r & E & T & S) H. destruct (in_dec (list_eq_dec ascii_dec) p short_ones) as [I|N]; [|now apply hash_defined].
  pose proof short_checked as C. rewrite forallb_forall in C. assert (In cult [true; false]) as Ic by (destruct cult; cbn; auto).
  specialize (C cult Ic). cbv beta in C. rewrite forallb_forall in C. specialize (C p I). unfold not_cmavo in C. rewrite E, T, S in C.
  destruct (hash_cmavo p); try discriminate. eauto.
Qed.

(* ---- one cmavo ---- *)
Definition tok_at (l : N) (x : ndata * N) : node * N := (Node (fst x) l (snd x) None false None [], 0).
Definition plus (ts : list (ndata * N)) (l : N) (b : bool) (st : lexer) : lexer :=
  Lexer (rev (map (tok_at l) ts) ++ lx_toks st) (lx_eols0 st) (lx_bad st || b)
    (zoi_form st) (zoi_next st) (zoi_delim st) (zoi_line st) (zoi_col st) (zoi_data st).
Lemma plus_plus ts l b ts' b' st : plus ts' l b' (plus ts l b st) = plus (ts ++ ts') l (b || b') st.
Proof. unfold plus. cbn. rewrite map_app, rev_app_distr, <- app_assoc, orb_assoc. reflexivity. Qed.
Lemma plus_nil l st : plus [] l false st = st.
Proof. destruct st. unfold plus. cbn. now rewrite orb_false_r. Qed.
Lemma add_plus d l c st : add_token d l c st = plus [(d, c)] l false st.
Proof. unfold plus, add_token. cbn. now rewrite orb_false_r. Qed.
Lemma bad_plus l st : set_bad st = plus [] l true st.
Proof. unfold plus, set_bad. cbn. now rewrite orb_true_r. Qed.
Lemma chars_valid p : forallb cmavo_char p = true <-> Forall (fun c => In c (list_ascii_of_string "abcdefgijklmnoprstuvxyz'")) p.
Proof.
  rewrite forallb_forall, Forall_forall. split; intros H x Hx.
  - apply in_chars. auto.
  - unfold cmavo_char. apply existsb_exists. exists x. split; [now apply H|apply Ascii.eqb_refl].
Qed.
Lemma one_cmavo cult p l c st : one_word cult MT_CMAVOS p ->
  exists d b, cmavo_token p d b /\ process_cmavo p l c st = Ok (plus (match d with Some d => [(d, c)] | None => [] end) l b st).
Proof.
  intro W. unfold process_cmavo. destruct (forallb cmavo_char p) eqn:V; cbn [negb].
  - destruct (hash_cmavo_word cult p W V) as [h H]. rewrite H. cbn [obind]. pose proof (found_listed p h H) as F.
    destruct (cmavo_found h p) as [[code s]|].
    + exists (Some (N_CMAVO s code false)), false. split; [constructor; now apply F|]. now rewrite add_plus.
    + exists (Some (N_GARBAGE (string_of_list_ascii p))), true. split.
      * constructor; [|now apply chars_valid]. intros code s L. apply F in L. discriminate.
      * now rewrite add_plus, (bad_plus l), plus_plus.
  - exists None, true. split; [|now rewrite (bad_plus l)]. constructor. intro Q. apply chars_valid in Q. congruence.
Qed.
Lemma cmavos cult ps l : forall c st, Forall (one_word cult MT_CMAVOS) ps ->
  exists ts b, cmavo_tokens ps c ts b /\ process_cmavos ps l c st = Ok (plus ts l b st, c + N.of_nat (length (concat ps))).
Proof.
  induction ps as [|p ps IH]; intros c st H.
  - exists [], false. split; [constructor|]. cbn. rewrite plus_nil. do 2 f_equal. lia.
  - inversion H as [|? ? Hp Hps]; subst. cbn [process_cmavos]. destruct (one_cmavo cult p l c st Hp) as (d & b & T & ->). cbn [obind].
    destruct (IH (c + N.of_nat (length p)) (plus (match d with Some d => [(d, c)] | None => [] end) l b st) Hps) as (ts & b' & T' & ->).
    eexists _, _. split; [econstructor; eassumption|]. rewrite plus_plus. cbn [concat]. rewrite app_length. do 2 f_equal. lia.
Qed.

(* ---- the pieces ---- *)
Lemma skipn_past {A} (a b : list A) : skipn (length a) (a ++ b) = b.
Proof. induction a; [reflexivity|assumption]. Qed.
Lemma between_split w starts ps : split_at w starts ps -> between w starts = ps.
Proof.
  intros (lead & _ & -> & -> & _). revert lead. induction ps as [|p ps IH]; intro lead; [reflexivity|]. cbn [offsets between concat].
  destruct ps as [|q ps].
  - cbn [offsets]. rewrite skipn_past. cbn. now rewrite app_nil_r.
  - cbn [offsets]. specialize (IH (lead ++ p)). rewrite app_length in IH. cbn [offsets] in IH. rewrite <- app_assoc in IH.
    replace (length lead + length p - length lead)%nat with (length p) by lia.
    rewrite skipn_past. cbn [concat]. rewrite firstn_app, Nat.sub_diag, firstn_all. cbn [firstn]. rewrite app_nil_r. f_equal. exact IH.
Qed.
Definition ty_of (t : morf_type) : option brivla_type :=
  match t with
  | MT_GISMU => Some BVT_GISMU | MT_LUJVO => Some BVT_LUJVO
  | MT_FUIVLA3 | MT_FUIVLA3_CVC | MT_FUIVLA3X | MT_FUIVLA3X_CVC => Some BVT_FUIVLA3 | MT_FUIVLA4 => Some BVT_FUIVLA4
  | _ => None
  end.
Definition outside_quote (st : lexer) : Prop := zoi_data st = None /\ zoi_next st = false.
Definition quoter (w : list ascii) : Prop := w = list_ascii_of_string "zoi" \/ w = list_ascii_of_string "la'o".
Lemma word_tokens cult w r l c st fuel : outside_quote st -> ~ quoter w -> morf_scan cult w = Ok r -> accepted (sc_type r) ->
  exists front lastp ts b, split_at w (sc_starts r) (front ++ [lastp]) /\
    match ty_of (sc_type r) with
    | Some ty => cmavo_tokens front c ts b /\
        process_word (S fuel) cult w l c st =
        Ok (plus (ts ++ [(N_BRIVLA (string_of_list_ascii lastp) ty, c + N.of_nat (length (concat front)))]) l b st)
    | None => sc_type r = MT_CMAVOS /\ cmavo_tokens (front ++ [lastp]) c ts b /\ process_word (S fuel) cult w l c st = Ok (plus ts l b st)
    end.
Proof.
  intros [O1 O2] Q M A. destruct (MorfProofs6.words cult w r M A) as (front & lastp & S & F & L). exists front, lastp.
  pose proof (between_split _ _ _ S) as B.
  assert (Ne : sc_starts r <> []) by (intro E; rewrite E in B; cbn in B; destruct front; discriminate).
  assert (W : process_word (Datatypes.S fuel) cult w l c st =
     match ty_of (sc_type r) with
     | Some ty => process_brivla w (sc_starts r) ty l c st
     | None => do r <- process_cmavos (between w (sc_starts r)) l c st; Ok (fst r)
     end).
  { cbn [process_word]. rewrite O1, O2.
    destruct (list_eq_dec ascii_dec w (list_ascii_of_string "zoi")); [destruct Q; left; assumption|].
    destruct (list_eq_dec ascii_dec w (list_ascii_of_string "la'o")); [destruct Q; right; assumption|].
    rewrite M. cbn [obind]. destruct A as (A1 & A2 & A3). destruct (sc_type r); try congruence; try reflexivity.
    cbn [ty_of]. destruct (sc_starts r); [congruence|reflexivity]. }
  destruct (ty_of (sc_type r)) as [ty|] eqn:Ty.
  - destruct (cmavos cult front l c st F) as (ts & b & T & P). exists ts, b. split; [exact S|]. split; [exact T|]. rewrite W.
    unfold process_brivla. rewrite B, rev_app_distr. cbn [rev app]. rewrite rev_involutive, P. cbn [obind]. rewrite add_plus, plus_plus, orb_false_r. reflexivity.
  - assert (sc_type r = MT_CMAVOS) as Tc by (destruct A as (A1 & A2 & A3); destruct (sc_type r); try congruence; discriminate).
    rewrite Tc in L. assert (F' : Forall (one_word cult MT_CMAVOS) (front ++ [lastp])) by (apply Forall_app; split; [exact F|constructor; [exact L|constructor]]).
    destruct (cmavos cult _ l c st F') as (ts & b & T & P). exists ts, b. split; [exact S|]. split; [exact Tc|]. split; [exact T|]. rewrite W, B, P. reflexivity.
Qed.
