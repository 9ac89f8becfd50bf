(* The places of words have no influence on anything but the places of tokens. *)
From Coq Require Import String Ascii List NArith ZArith Bool Arith Lia.
From Verif Require Import Base TokData TokModel MorfModel LexModel LexSpec LexProofs LexProofs2.
Import ListNotations.
Open Scope N_scope.
Open Scope list_scope.

Definition unp (st : lexer) : lexer :=
  Lexer (map (fun x => (unplaced (fst x), snd x)) (lx_toks st)) (lx_eols0 st) (lx_bad st)
    (zoi_form st) (zoi_next st) (zoi_delim st) 0 0 (zoi_data st).
Definition om {A B} (f : A -> B) (o : outcome A) : outcome B := do x <- o; Ok (f x).
Lemma om_bind {A B} (f : A -> B) (o : outcome A) {C} (k : A -> outcome C) (k' : B -> outcome C) :
  (forall x, k x = k' (f x)) -> obind o k = obind (om f o) k'.
Proof. intro H. destruct o; cbn; auto. Qed.

Lemma unp_add d l c st : unp (add_token d l c st) = unp (add_token d 0 0 (unp st)).
Proof. unfold unp, add_token. cbn [lx_toks lx_eols0 lx_bad zoi_form zoi_next zoi_delim zoi_line zoi_col zoi_data map fst snd unplaced].
  f_equal. f_equal. rewrite map_map. apply map_ext. intros [[d' l' c' b g k u] e]. reflexivity. Qed.
Lemma unp_twice st : unp (unp st) = unp st.
Proof. unfold unp. cbn [lx_toks lx_eols0 lx_bad zoi_form zoi_next zoi_delim zoi_line zoi_col zoi_data].
  f_equal. rewrite map_map. apply map_ext. intros [[d' l' c' b g k u] e]. reflexivity. Qed.
Lemma unp_bad st : unp (set_bad st) = set_bad (unp st).
Proof. reflexivity. Qed.
Lemma unp_eol st : unp (mark_eol st) = unp (mark_eol (unp st)).
Proof.
  unfold mark_eol, unp. cbn [lx_toks lx_eols0 lx_bad zoi_form zoi_next zoi_delim zoi_line zoi_col zoi_data].
  destruct (lx_toks st) as [|[[d l c b g k u] e] r]; [reflexivity|]. cbn [map fst snd unplaced lx_toks]. f_equal. f_equal.
  rewrite map_map. apply map_ext. intros [[d' l' c' b' g' k' u'] e']. reflexivity.
Qed.
Lemma om_om {A B C} (f : A -> B) (g : B -> C) o : om g (om f o) = om (fun x => g (f x)) o.
Proof. destruct o; reflexivity. Qed.
Lemma unp_cmavo p l c st : om unp (process_cmavo p l c st) = om unp (process_cmavo p 0 0 (unp st)).
Proof.
  unfold process_cmavo. destruct (negb (forallb cmavo_char p)); [cbn; f_equal; rewrite !unp_bad, unp_twice; reflexivity|].
  destruct (hash_cmavo p) as [h| | | |]; try reflexivity. cbn [obind]. destruct (cmavo_found h p) as [[code s]|]; cbn [om obind]; f_equal.
  - apply unp_add.
  - rewrite unp_add, unp_bad. reflexivity.
Qed.
Lemma unp_cmavos ps : forall l c l' c' st st', unp st = unp st' ->
  om (fun r => unp (fst r)) (process_cmavos ps l c st) = om (fun r => unp (fst r)) (process_cmavos ps l' c' st').
Proof.
  induction ps as [|p ps IH]; intros l c l' c' st st' E; [cbn; now rewrite E|]. cbn [process_cmavos].
  pose proof (unp_cmavo p l c st) as H1. pose proof (unp_cmavo p l' c' st') as H2. rewrite <- E in H2. rewrite <- H2 in H1. clear H2.
  destruct (process_cmavo p l c st) as [a| | | |], (process_cmavo p l' c' st') as [b| | | |]; cbn [om obind] in H1; try discriminate; try (injection H1 as ->); try reflexivity.
  cbn [obind]. apply IH. congruence.
Qed.
Lemma unp_zoi_data st st' : unp st = unp st' -> zoi_data st = zoi_data st' /\ zoi_next st = zoi_next st' /\ zoi_delim st = zoi_delim st' /\ zoi_form st = zoi_form st'.
Proof. intro E. unfold unp in E. injection E. auto. Qed.
Lemma unp_addeq d l c l' c' st st' : unp st = unp st' -> unp (add_token d l c st) = unp (add_token d l' c' st').
Proof. intro E. rewrite unp_add, E. symmetry. apply unp_add. Qed.
Lemma unp_word cult fuel : forall w l c l' c' st st', unp st = unp st' ->
  om unp (process_word fuel cult w l c st) = om unp (process_word fuel cult w l' c' st').
Proof.
  induction fuel as [|fuel IH]; intros w l c l' c' st st' E; [reflexivity|]. cbn [process_word].
  destruct (unp_zoi_data st st' E) as (Ed & En & El & Ef). rewrite <- Ed, <- En, <- El.
  assert (F : lx_eols0 st = lx_eols0 st' /\ lx_bad st = lx_bad st' /\
     map (fun x => (unplaced (fst x), snd x)) (lx_toks st) = map (fun x => (unplaced (fst x), snd x)) (lx_toks st')) by (unfold unp in E; injection E; auto).
  destruct F as (F1 & F2 & F3).
  destruct (zoi_data st) as [d|] eqn:Z.
  { destruct (list_eq_dec ascii_dec w (zoi_delim st)); cbn [om obind]; f_equal; unfold close_zoi, extend_zoi, unp; cbn; rewrite ?F1, ?F2, ?F3, ?Ef, ?En, ?El; reflexivity. }
  destruct (zoi_next st).
  { unfold delim_zoi. destruct (64 <=? length w)%nat; [reflexivity|]. cbn [om obind]. f_equal. unfold unp; cbn. rewrite F1, F2, F3, Ef. reflexivity. }
  destruct (list_eq_dec ascii_dec w (list_ascii_of_string "zoi")).
  { cbn [om obind]. f_equal. unfold open_zoi, unp; cbn. rewrite F1, F2, F3, El, Z, <- Ed. reflexivity. }
  destruct (list_eq_dec ascii_dec w (list_ascii_of_string "la'o")).
  { cbn [om obind]. f_equal. unfold open_zoi, unp; cbn. rewrite F1, F2, F3, El, Z, <- Ed. reflexivity. }
  destruct (morf_scan cult w) as [r| | | |]; try reflexivity. cbn [obind].
  assert (Br : forall ty, om unp (process_brivla w (sc_starts r) ty l c st) = om unp (process_brivla w (sc_starts r) ty l' c' st')).
  { intro ty. unfold process_brivla. destruct (rev (between w (sc_starts r))) as [|lp fr]; [reflexivity|].
    pose proof (unp_cmavos (rev fr) l c l' c' st st' E) as H.
    destruct (process_cmavos (rev fr) l c st) as [[a ca]| | | |], (process_cmavos (rev fr) l' c' st') as [[b cb]| | | |]; cbn [om obind fst] in H; try discriminate; try (injection H as ->); try reflexivity.
    cbn [obind om]. f_equal. apply unp_addeq. congruence. }
  destruct (sc_type r); try apply Br; try (cbn [om obind]; f_equal; rewrite !unp_bad, E; reflexivity).
  - destruct (sc_starts r) as [|s ss]; [reflexivity|].
    pose proof (unp_cmavos (between w (s :: ss)) l c l' c' st st' E) as H.
    destruct (process_cmavos (between w (s :: ss)) l c st) as [[a ca]| | | |], (process_cmavos (between w (s :: ss)) l' c' st') as [[b cb]| | | |];
      cbn [om obind fst] in H |- *; try discriminate; try (injection H as ->); congruence.
  - destruct (sc_cmene r) as [i|]; [|reflexivity]. destruct (is_bad i); [|cbn [om obind]; f_equal; now apply unp_addeq].
    destruct (ladoi i) as [a|]; [|reflexivity]. destruct (tail i) as [b|]; [|reflexivity]. cbv zeta.
    destruct (8 <=? length (firstn (b - a) (skipn a w)))%nat; [reflexivity|].
    assert (H1 : om unp (match firstn a w with [] => Ok st | _ => process_word fuel cult (firstn a w) l c st end) =
      om unp (match firstn a w with [] => Ok st' | _ => process_word fuel cult (firstn a w) l' c' st' end)).
    { destruct (firstn a w); [cbn; now rewrite E|now apply IH]. }
    destruct (match firstn a w with [] => Ok st | _ => process_word fuel cult (firstn a w) l c st end) as [s1| | | |],
      (match firstn a w with [] => Ok st' | _ => process_word fuel cult (firstn a w) l' c' st' end) as [s2| | | |];
      cbn [om obind] in H1 |- *; try discriminate; try (injection H1 as ->); try reflexivity.
    assert (E2 : unp s1 = unp s2) by congruence.
    pose proof (IH (firstn (b - a) (skipn a w)) l (c + N.of_nat a) l' (c' + N.of_nat a) s1 s2 E2) as H2.
    destruct (process_word fuel cult (firstn (b - a) (skipn a w)) l (c + N.of_nat a) s1) as [s3| | | |],
      (process_word fuel cult (firstn (b - a) (skipn a w)) l' (c' + N.of_nat a) s2) as [s4| | | |];
      cbn [om obind] in H2 |- *; try discriminate; try (injection H2 as ->); try reflexivity.
    apply IH. congruence.
Qed.

(* lists of calls with the same words *)
Definition cword (x : call) : option (list ascii) := match x with Call w _ _ => Some w | Line => None end.
Lemma unp_run cult cs : forall cs' st st', map cword cs = map cword cs' -> unp st = unp st' -> om unp (run cult cs st) = om unp (run cult cs' st').
Proof.
  induction cs as [|x cs IH]; intros [|x' cs'] st st' Q E; try discriminate; [cbn; now rewrite E|]. cbn [map] in Q. injection Q as Q1 Q2.
  destruct x as [w l c|], x' as [w' l' c'|]; try discriminate Q1; cbn [run].
  - injection Q1 as ->. destruct (65536 <=? N.of_nat (length w')); [reflexivity|]. unfold word.
    pose proof (unp_word cult (S (length (cstring w'))) (cstring w') l c l' c' st st' E) as H.
    destruct (process_word _ cult (cstring w') l c st) as [a| | | |], (process_word _ cult (cstring w') l' c' st') as [b| | | |]; cbn [om obind] in H |- *; try discriminate; try (injection H as ->); try reflexivity.
    apply IH; [exact Q2|congruence].
  - apply IH; [exact Q2|]. rewrite unp_eol, E. symmetry. apply unp_eol.
Qed.

Definition ewords (e : list event) : list (option (list ascii)) :=
  concat (map (fun x => match x with Word w _ _ => [Some w] | Number w _ _ => [Some (list_ascii_of_string w)] | Eol => [None] | Gap => [] end) e).
Lemma calls_words e : forall k, map cword (calls k e) = ewords e.
Proof. induction e as [|[w l c|w l c| |] e IH]; intro k; unfold ewords in *; cbn [calls map cword concat app]; [reflexivity| | | |]; rewrite IH; reflexivity. Qed.
Lemma spaced_reads l c is e : reads l c is e -> forall l' c', exists e', reads l' c' (map spaced is) e' /\ ewords e' = ewords e.
Proof.
  induction 1 as [l c|l c a is e l1 c1 P R IH|l c x is e Sx Nx R IH|l c is e R IH|l c x w is e Nw R IH|l c w is e Ne W Nb R IH]; intros l' c'.
  - exists []. split; [constructor|reflexivity].
  - destruct (IH l' (c' + 1)) as (e' & R' & E'). exists e'. split; [|exact E']. cbn [map spaced]. constructor; [reflexivity|discriminate|exact R'].
  - destruct (IH l' (c' + 1)) as (e' & R' & E'). exists e'. split; [|exact E']. cbn [map spaced]. constructor; assumption.
  - destruct (IH (l' + 1) 1) as (e' & R' & E'). exists (Eol :: e'). split; [cbn [map spaced]; now constructor|]. unfold ewords in *. cbn [map concat]. now rewrite E'.
  - destruct (IH l' (c' + 1)) as (e' & R' & E'). exists (Number w l' c' :: e'). split; [cbn [map spaced]; now constructor|]. unfold ewords in *. cbn [map concat]. now rewrite E'.
  - destruct (IH l' (c' + N.of_nat (length w))) as (e' & R' & E'). exists (Word w l' c' :: e'). split; [|unfold ewords in *; cbn [map concat]; now rewrite E'].
    rewrite map_app, map_map. cbn [spaced]. constructor; [exact Ne|exact W| |exact R'].
    intros i is' Q. destruct is as [|j js]; [discriminate|]. cbn [map] in Q. injection Q as <- _. specialize (Nb j js eq_refl).
    destruct j as [z|a]; [exact Nb|]. cbn. unfold word_char. intros [H _]. discriminate.
Qed.
Lemma unp_ended st : unp (ended st) = ended (unp st).
Proof. unfold ended. change (zoi_data (unp st)) with (zoi_data st). destruct (zoi_data st); reflexivity. Qed.
Lemma spaced_proper is : Forall proper is -> Forall proper (map spaced is).
Proof. induction 1 as [|i is P _ IH]; [constructor|]. cbn [map]. constructor; [|exact IH]. destruct i; cbn in *; [exact P|discriminate]. Qed.
Lemma comments_spaces cult is st k k' : Forall proper is -> (length (written is) < k)%nat -> (length (written (map spaced is)) < k')%nat ->
  om unp (parse_file k cult (written is) st) = om unp (parse_file k' cult (written (map spaced is)) st).
Proof.
  intros P L L'. destruct (reads_total is P 1 1) as [e R]. destruct (spaced_reads 1 1 is e R 1 1) as (e' & R' & E').
  rewrite (parse_reads cult is e st k P R L), (parse_reads cult _ e' st k' (spaced_proper is P) R' L').
  assert (H : map cword (calls None e) = map cword (calls None e')) by now rewrite !calls_words.
  pose proof (unp_run cult _ _ (r_lex (reader0 st)) (r_lex (reader0 st)) H eq_refl) as Q.
  destruct (run cult (calls None e) _) as [a| | | |], (run cult (calls None e') _) as [b| | | |]; cbn [om obind] in Q |- *; try discriminate; try (injection Q as ->); try reflexivity.
  f_equal. rewrite !unp_ended. congruence.
Qed.
