(* The glossed output of parse trees: it is complete, continued. *)
From Coq Require Import String Ascii List NArith ZArith Bool Arith Lia.
From Verif Require Import Base TokData CmavoData TokModel StreamModel TreeModel TreeOutModel ErasureProofs GrammarData GramModel GramSpec
  GramProofs PassProofs2 ConnectModel ConnectSpec ConnectProofs ConnectProofs2.
From Verif Require Import OutModel OutSpec OutProofs OutProofs2 OutProofs3 OutProofs4 OutProofs5.
Import TransModel(tctx).
Import ListNotations.
Open Scope string_scope.
Open Scope list_scope.

Notation len s := (N.of_nat (String.length s)).
Lemma len_app a b : len (a ++ b) = (len a + len b)%N.
Proof. induction a as [|c a IH]; [reflexivity|]. cbn [String.append String.length]. rewrite !Nat2N.inj_succ, IH. lia. Qed.
Lemma len_cons c s : len (String c s) = (1 + len s)%N.
Proof. cbn [String.length]. lia. Qed.
Lemma put_fits n s : (len s < n)%N -> put n s = Ok s.
Proof. intro L. unfold put. apply N.ltb_lt in L. rewrite L. reflexivity. Qed.
Definition fine {A} (r : outcome A) : Prop := exists a, r = Ok a.
Lemma fine_bind {A B} (e : outcome A) (k : A -> outcome B) : fine e -> (forall a, e = Ok a -> fine (k a)) -> fine (obind e k).
Proof. intros [a ->] K. cbn [obind]. apply K. reflexivity. Qed.
Lemma fine_ok {A} (a : A) : fine (Ok a).
Proof. eexists; reflexivity. Qed.
Lemma fine_put n s : (len s < n)%N -> fine (put n s).
Proof. intro L. rewrite put_fits by exact L. apply fine_ok. Qed.
Lemma fine_turn l : Forall fine l -> fine (in_turn l).
Proof.
  induction 1 as [|r l R F IH]; [apply fine_ok|]. cbn [in_turn]. apply fine_bind; [exact R|]. intros a _. apply fine_bind; [exact IH|]. intros b _. apply fine_ok.
Qed.

Lemma sprintf_free s n u : percent_free s = true -> sprintf_d s n u = Ok s.
Proof.
  revert u. induction s as [|c s IH]; intros u H; [reflexivity|]. unfold percent_free in H. cbn [list_ascii_of_string forallb] in H.
  apply andb_true_iff in H. destruct H as [H1 H2]. fold (percent_free s) in H2. apply negb_true_iff in H1.
  transitivity (do s <- sprintf_d s n u; Ok (String c s)); [|rewrite (IH u H2); reflexivity].
  destruct c as [[] [] [] [] [] [] [] []]; try discriminate H1; reflexivity.
Qed.
Lemma sprintf_app a b n u : percent_free a = true -> sprintf_d (a ++ b) n u = do s <- sprintf_d b n u; Ok (a ++ s)%string.
Proof.
  induction a as [|c s IH]; intros H.
  - cbn [String.append]. destruct (sprintf_d b n u); reflexivity.
  - unfold percent_free in H. cbn [list_ascii_of_string forallb] in H.
    apply andb_true_iff in H. destruct H as [H1 H2]. fold (percent_free s) in H2. apply negb_true_iff in H1. cbn [String.append].
    transitivity (do s <- sprintf_d (s ++ b) n u; Ok (String c s)); [|rewrite (IH H2); destruct (sprintf_d b n u); reflexivity].
    destruct c as [[] [] [] [] [] [] [] []]; try discriminate H1; reflexivity.
Qed.
Lemma sprintf_template e n s : template e n s -> sprintf_d e n false = Ok s.
Proof.
  intros [s' n' F|a b n' Fa Fb]; [apply sprintf_free; exact F|]. rewrite sprintf_app by exact Fa.
  change (sprintf_d ("%d" ++ b) n' false) with (do s <- sprintf_d b n' true; Ok (TransModel.zdec (Z.of_nat n') ++ s)%string).
  rewrite sprintf_free by exact Fb. reflexivity.
Qed.

Section TOTAL.
  Variable translate : string -> option string.
  Variable adv_translate : string -> Z -> tctx -> outcome string.
  Variable translate_unknown : string -> Z -> tctx -> outcome (option string).
  Variable P : props.
  Variable rb : path -> bool.
  Variable t : tree.
  Hypothesis PT : parse_tree t.
  Let T := expand_bahe_ui t.
  Let top := add_bracketing_tags rb T.
  Variable ws : list write.
  Hypothesis CW : connectives_processing T = Ok ws.
  Hypothesis CP : forall p, p_connective P p = connective_at ws p.
  Hypothesis OR : ordinary translate adv_translate translate_unknown P (number top) T.

  Lemma at_bare p a : asub top p = Some a -> subtree T p = Some (bare a).
  Proof. intro A. apply asub_bare in A. unfold top in A. rewrite bare_tags in A. exact A. Qed.
  Lemma at_leaf p x : subtree T p = Some (Leaf x) -> exists b n, asub top p = Some (ALeaf x b n).
  Proof.
    intro E. rewrite <- (bare_tags rb T) in E. destruct (subtree_asub _ _ _ E) as ([y b n|ty b n ch] & A & B); inversion B; subst. eauto.
  Qed.
  Lemma at_node p ty ch : subtree T p = Some (NT ty ch) -> exists b n ch', asub top p = Some (ANT ty b n ch') /\ map bare ch' = ch.
  Proof.
    intro E. rewrite <- (bare_tags rb T) in E. destruct (subtree_asub _ _ _ E) as ([y b n|ty' b n ch'] & A & B); inversion B; subst. eauto.
  Qed.

  Lemma entry_short k e : translate k = Some e -> (len e <= 300)%N.
  Proof. apply (or_entry _ _ _ _ _ _ OR). Qed.
  Lemma other_fine w : fine (translate_other_cmavo translate w) /\ forall e, translate_other_cmavo translate w = Ok e -> (len e <= 300)%N.
  Proof.
    unfold translate_other_cmavo. destruct (translate w) as [e|] eqn:E; [|split; [apply fine_ok|intros e Q; inversion Q; cbn; lia]].
    pose proof (entry_short _ _ E). split; [apply fine_put; lia|]. intros e' Q. apply put_ok in Q. subst. exact H.
  Qed.
  Lemma attempt_fine w : fine (attempt_translation translate w) /\ forall e, attempt_translation translate w = Ok e -> (len e <= 300)%N.
  Proof.
    unfold attempt_translation. destruct (translate w) as [e|] eqn:E; [|split; [apply fine_ok|intros e Q; inversion Q; cbn; lia]].
    pose proof (entry_short _ _ E). split; [apply fine_put; lia|]. intros e' Q. apply put_ok in Q. subst. exact H.
  Qed.
  Lemma content_convertible p w o : content translate adv_translate translate_unknown P p w o ->
    translate_convertible translate adv_translate translate_unknown P w p = Ok o.
  Proof.
    unfold translate_convertible.
    intros [sel ter e G A|e G A|e G A B|o' G A B C]; rewrite G.
    - replace (if ter then if sel then TransModel.TCX_VERB else TransModel.TCX_NOUN else TransModel.TCX_QUAL) with (role sel ter) by (destruct sel, ter; reflexivity).
      unfold first_place in A. rewrite A. reflexivity.
    - unfold first_place in A. rewrite A. reflexivity.
    - unfold first_place in A. rewrite A, B. reflexivity.
    - unfold first_place in *. rewrite A, B. exact C.
  Qed.
  Lemma content_fine p x w : subtree T p = Some (Leaf x) -> has_places x w ->
    fine (translate_content translate adv_translate translate_unknown P w p).
  Proof.
    intros E H. destruct (or_content _ _ _ _ _ _ OR p x w E H) as (o & C & S). unfold translate_content. rewrite (content_convertible _ _ _ C).
    cbn [obind]. destruct o; [|apply fine_ok]. apply fine_put. cbn [or_nothing] in S. unfold short in S. lia.
  Qed.
  Lemma number_fine q n : number top q = Some n -> number_at top q = Ok n.
  Proof. unfold number, number_at. destruct (asub top q) as [[]|]; intro H; inversion H. reflexivity. Qed.

  Lemma indicator_fine w k neg : fine (translate_indicator translate w neg k).
  Proof.
    unfold translate_indicator.
    assert (A : exists b, match k with
                 | None => Ok ""
                 | Some k => match translate (cai_key k) with Some t => put 65536 (t ++ " ") | None => UB UB_null end
                 end = Ok b /\ (len b <= 301)%N).
    { destruct k as [d|]; [|exists ""; split; [reflexivity|cbn; lia]]. pose proof (or_degree _ _ _ _ _ _ OR d) as N.
      replace (substring 1 10 (degree (Some d))) with (cai_key d) in N by (destruct d; reflexivity).
      destruct (translate (cai_key d)) as [e|] eqn:E; [|contradiction]. pose proof (entry_short _ _ E).
      exists (e ++ " ")%string. rewrite len_app. change (len " ") with 1%N. split; [|lia]. apply put_fits. rewrite len_app. change (len " ") with 1%N. lia. }
    destruct A as (b & -> & L). cbn [obind]. apply fine_bind; [|intros; apply fine_ok].
    destruct (translate _) as [e|] eqn:E; [|apply fine_ok]. pose proof (entry_short _ _ E).
    apply fine_bind; [apply fine_put; rewrite len_app; lia|]. intros a A. apply put_ok in A. subst a. apply fine_put.
    rewrite !len_app. change (len "{") with 1%N. change (len "..}") with 3%N. lia.
  Qed.

  Lemma gloss_fine p x s c f : subtree T p = Some (Leaf x) -> dat x = N_CMAVO s c f ->
    fine (cmavo_gloss translate adv_translate translate_unknown P top p s (cmavo_word c)).
  Proof.
    intros E D. pose proof (other_fine (cmavo_word c)) as [O1 O2].
    assert (B : fine (translate_bai translate P p (cmavo_word c))).
    { unfold translate_bai. apply fine_bind.
      - destruct (p_bai_conversion P p) as [k|] eqn:K; [|apply fine_ok]. pose proof (or_bai _ _ _ _ _ _ OR p k K) as R.
        destruct k as [|[|[|[|[|[|]]]]]]; try apply fine_ok; lia.
      - intros a _. cbn zeta. destruct (translate (a ++ _)%string) as [e|] eqn:E1; [apply fine_put; pose proof (entry_short _ _ E1); lia|].
        destruct (translate (cmavo_word c)) as [e|] eqn:E2; [|apply fine_ok]. apply fine_put. rewrite len_app. pose proof (entry_short _ _ E2).
        change (len " (CONV?)") with 8%N. lia. }
    assert (SG : fine (translate_se_goi translate P p (cmavo_word c))).
    { unfold translate_se_goi. destruct (p_dont_gloss P p); [apply fine_ok|exact O1]. }
    assert (K : fine (translate_koha translate P top p (cmavo_word c))).
    { unfold translate_koha. apply fine_bind; [exact O1|]. intros e Ee. destruct (String.eqb (cmavo_word c) "ke'a"); [|apply fine_ok].
      destruct (p_rel_clause_link P p) as [r|] eqn:L; [|apply fine_ok]. destruct (p_antecedent P r) as [a|] eqn:A; [|apply fine_ok].
      destruct (or_keha _ _ _ _ _ _ OR p r a L A) as (n & Nn & Ln). rewrite (number_fine _ _ Nn). cbn [obind]. apply fine_put.
      rewrite !len_app. specialize (O2 _ Ee). change (len " #") with 2%N. lia. }
    assert (TN : fine (translate_tense translate P p (cmavo_word c))).
    { unfold translate_tense. destruct (p_tense_ctx P p) as [k|]; [|exact O1]. unfold translate_tense_in_context.
      destruct (translate (cmavo_word c ++ _)%string) as [e|] eqn:E1; [apply fine_put; pose proof (entry_short _ _ E1); lia|].
      destruct (translate (cmavo_word c)) as [e|] eqn:E2; [apply fine_put; pose proof (entry_short _ _ E2); lia|exact O1]. }
    assert (JA : fine (translate_jai translate P p (cmavo_word c))).
    { unfold translate_jai. cbn zeta. destruct (translate (cmavo_word c ++ _)%string) as [e|] eqn:E1; [apply fine_put; pose proof (entry_short _ _ E1); lia|exact O1]. }
    destruct s; try exact O1; try exact B; try exact SG; try exact K; try exact TN; try exact JA.
    exact (content_fine p x _ E (hp_nu _ _ _ D)).
  Qed.

  Lemma zei_fine p x ys plus z : subtree T p = Some (Leaf x) -> dat x = N_ZEI ys plus z ->
    exists l, zei_words translate ys = Ok l /\ short (String.concat " type-of " l).
  Proof.
    intros E D. destruct (or_parts _ _ _ _ _ _ OR p x ys plus z E D) as (l & F & S). exists l. split; [|exact S].
    clear S D. induction F as [|y s ys l (w & B & ->) F IH]; [reflexivity|]. cbn [zei_words]. rewrite B. cbn [obind]. rewrite IH. reflexivity.
  Qed.

  Lemma paused_len s : (len s <= len (paused s))%N.
  Proof. destruct s as [|c s]; cbn [paused]; [cbn; lia|]. destruct (vowel c); [rewrite (len_cons "."%char)|]; lia. Qed.

  Lemma word_fine p x : subtree T p = Some (Leaf x) -> fine (word_and_translation translate adv_translate translate_unknown P top p x).
  Proof.
    intro E. pose proof (leaf_usable t p x PT E) as U. pose proof (or_word _ _ _ _ _ _ OR p x E) as S. unfold short in S.
    unfold written in S. unfold word_and_translation, usable in *. destruct (dat x) as [tx|w|s c ff|fo te tx|tx|tx|ys pl ze|w|w ty|w|d] eqn:D; try contradiction.
    - assert (G := gloss_fine p x s c ff E D).
      assert (G' : fine (do e <- cmavo_gloss translate adv_translate translate_unknown P top p s (cmavo_word c);
                         Ok (if p_elidable P p then make_uppercase (cmavo_word c) else cmavo_word c, e))).
      { apply fine_bind; [exact G|]. intros; apply fine_ok. }
      destruct s; try exact G'; apply indicator_fine.
    - apply fine_bind; [apply fine_put; eapply N.le_lt_trans; [|apply N.lt_le_trans with 1001%N; [|discriminate]]; [eapply N.le_trans; [apply paused_len|exact S]|reflexivity]|].
      intros l _. destruct (attempt_fine tx) as [A _]. apply fine_bind; [exact A|]. intros; apply fine_ok.
    - apply fine_bind; [apply fine_put; lia|]. intros l _. destruct (attempt_fine tx) as [A B]. apply fine_bind; [exact A|]. intros e Ee.
      specialize (B _ Ee). apply fine_bind; [|intros; apply fine_ok]. apply fine_put. rewrite !len_app. change (len """") with 1%N. lia.
    - apply fine_bind; [apply fine_put; lia|]. intros l _. destruct (attempt_fine tx) as [A _]. apply fine_bind; [exact A|]. intros; apply fine_ok.
    - apply fine_bind; [apply fine_put; lia|]. intros l _.
      destruct (or_content _ _ _ _ _ _ OR p x pl E (hp_zei _ _ _ _ D)) as (o & C & SO). rewrite (content_convertible _ _ _ C). cbn [obind].
      destruct (zei_fine p x ys pl ze E D) as (l' & Z & SZ). unfold short in SZ, SO.
      destruct (match o with Some t => _ | None => _ end).
      + apply fine_bind; [|intros; apply fine_ok]. apply fine_put. destruct o; cbn [or_nothing] in SO; [lia|cbn; lia].
      + rewrite Z. cbn [obind]. apply fine_bind; [apply fine_put; lia|]. intros; apply fine_ok.
    - pose proof (paused_len (w ++ ".bu")%string). apply fine_bind; [apply fine_put; lia|]. intros l _. destruct (attempt_fine l) as [A _].
      apply fine_bind; [exact A|]. intros; apply fine_ok.
    - pose proof (paused_len w). apply fine_bind; [apply fine_put; lia|]. intros l _.
      apply fine_bind; [exact (content_fine p x _ E (hp_brivla _ _ _ D))|]. intros; apply fine_ok.
    - pose proof (paused_len w). rewrite len_app in S. apply fine_bind; [apply fine_put; lia|]. intros; apply fine_ok.
  Qed.

  Lemma leaf_fine m p x b n : subtree T p = Some (Leaf x) ->
    fine (output_leaf translate adv_translate translate_unknown P top m p x b n).
  Proof.
    intro E. unfold output_leaf. apply fine_bind; [exact (word_fine p x E)|]. intros [l e] W. pose proof (loj_written _ _ _ _ _ _ _ _ _ W) as L.
    pose proof (or_word _ _ _ _ _ _ OR p x E) as S. unfold short in S. rewrite <- L in S.
    destruct (dat x); try apply fine_ok; (apply fine_bind; [apply fine_put; lia|intros; apply fine_ok]).
  Qed.

  (* ---- time offsets and clusters ---- *)

  Lemma time_fine p ch : subtree T p = Some (NT "TIME_OFFSET" (map bare ch)) -> fine (translate_time_offset translate P p ch).
  Proof.
    intro E. unfold translate_time_offset. cbn zeta.
    pose proof (node_parsed t p _ _ PT E ltac:(discriminate)) as PN. destruct (parsed_prod _ _ PN ltac:(discriminate)) as (ss & IS & F).
    assert (R : forallb (fun ss => firm T_PU ss && Nat.eqb (count T_PU ss) 1) (alternatives "TIME_OFFSET") = true) by (vm_compute; reflexivity).
    apply (alts _ _ R) in IS. apply andb_true_iff in IS. destruct IS as [R1 R2]. apply Nat.eqb_eq in R2.
    destruct (cands_count T_PU ss _ eq_refl F R1) as [L _]. rewrite R2 in L. unfold find_nth_cmavo_child at 1.
    destruct (cmavo_candidates (map bare ch) T_PU) as [|pu l]; [discriminate L|]. cbn [nth_error].
    destruct (p_tense_ctx P p) as [c|]; [|apply fine_ok]. unfold translate_tense_in_context.
    assert (ONE : forall w, (len (match translate w with Some t => t | None => "?" end) <= 300)%N).
    { intro w. destruct (translate w) eqn:Q; [exact (entry_short _ _ Q)|cbn; lia]. }
    assert (MORE : forall o, (len (match o with Some x => " " ++ match translate (text_of x) with Some t => t | None => "?" end | None => "" end)%string <= 301)%N).
    { intros [y|]; [rewrite len_app; change (len " ") with 1%N; specialize (ONE (text_of y)); lia|cbn; lia]. }
    destruct (match translate _ with Some t => _ | None => _ end) as [e|] eqn:Q.
    - apply fine_put. destruct (translate (_ ++ ctx_ending c)%string) eqn:Q1.
      + injection Q as <-. pose proof (entry_short _ _ Q1). lia.
      + pose proof (entry_short _ _ Q). lia.
    - apply fine_put. rewrite !len_app. pose proof (ONE (text_of pu)).
      pose proof (MORE (find_nth_cmavo_child (map bare ch) 1 T_NAI)). pose proof (MORE (find_nth_cmavo_child (map bare ch) 1 T_ZI)). lia.
  Qed.

  Lemma len_concat l : len (String.concat "" l) = fold_right (fun s n => (len s + n)%N) 0%N l.
  Proof.
    induction l as [|s l IH]; [reflexivity|]. cbn [fold_right]. destruct l as [|s2 l]; [cbn [String.concat fold_right]; lia|].
    change (String.concat "" (s :: s2 :: l)) with (s ++ "" ++ String.concat "" (s2 :: l))%string. rewrite !len_app, IH. change (len "") with 0%N. lia.
  Qed.
  Definition weight (l : list (path * node)) : N := fold_right (fun e n => (len (written false (snd e)) + n)%N) 0%N l.
  Lemma weight_app a b : weight (a ++ b) = (weight a + weight b)%N.
  Proof. unfold weight. induction a as [|e a IH]; cbn [app fold_right]; [reflexivity|]. rewrite IH. lia. Qed.
  Lemma weight_concat l : weight l = len (String.concat "" (map (fun e => written false (snd e)) l)).
  Proof. rewrite len_concat. unfold weight. induction l as [|e l IH]; cbn [map fold_right]; [reflexivity|]. rewrite IH. reflexivity. Qed.
  Lemma inside_len a : forall p, (len (cmavo_text_inside a) <= weight (leaves p (bare a)))%N.
  Proof.
    induction a as [x b n|ty b n ch IH] using atree_induct; intro p.
    - cbn [cmavo_text_inside bare leaves weight fold_right snd]. unfold written.
      destruct (dat x) as [tx|w|s c ff|fo te tx|tx|tx|ys pl ze|w|w k|w|d]; try (cbn; lia).
      + destruct (bystander s); [cbn; lia|]. destruct (tok_eqb s T_UI || tok_eqb s T_CAI).
        * eapply N.le_trans; [|eapply N.le_trans; [apply paused_len|apply N.le_add_r]]. rewrite len_app. lia.
        * eapply N.le_trans; [apply paused_len|apply N.le_add_r].
      + eapply N.le_trans; [|eapply N.le_trans; [apply paused_len|apply N.le_add_r]]. rewrite len_app. lia.
    - cbn [cmavo_text_inside bare]. rewrite leaves_kids, len_concat. generalize 0.
      induction IH as [|c l Hc Hl IHl]; intro i; [cbn; lia|]. cbn [map fold_right leaves_from]. rewrite weight_app.
      specialize (Hc (p ++ [i])). specialize (IHl (S i)). lia.
  Qed.
  Lemma cluster_fine p ty b n ch : subtree T p = Some (NT ty (map bare ch)) -> one_of ty ["SPACE_INT_PROP"; "INTERVAL_PROPERTY"; "NUMBER_MOI_TU2"] = true ->
    fine (get_cmavo_text_inside_node (ANT ty b n ch)).
  Proof.
    intros E K. pose proof (or_number _ _ _ _ _ _ OR p ty _ E K) as S. unfold short in S. rewrite <- weight_concat in S.
    unfold get_cmavo_text_inside_node. apply fine_put. pose proof (inside_len (ANT ty b n ch) p) as L. cbn [bare] in L. lia.
  Qed.

  (* ---- the walk ---- *)

  Notation outi := (output_internal translate adv_translate translate_unknown P top).
  Notation outs := (OutProofs.outs translate adv_translate translate_unknown P top).
  Notation jump := (OutProofs.jump translate adv_translate translate_unknown P top).

  (* no forethought connective below a node *)
  Definition calm (p : path) : Prop := forall r k ch, subtree T (p ++ r) = Some (NT k ch) -> k <> "GEK" /\ k <> "GUHEK" /\ k <> "GIK".
  Definition enough (f : nat) (m : mode) (p : path) : Prop := 2 <= f \/ (1 <= f /\ lojban m = false) \/ (lojban m = false /\ calm p).
  Definition speaks (m : mode) : bool := english m || match m with SHOW_TAG_TRANS => true | _ => false end.
  (* the gik in a gek is only shown *)
  Definition placed_gik (m : mode) (p : path) (a : atree) : Prop := is_ant "GIK" a = true -> speaks m = true ->
    forall q i gch, p = q ++ [i] -> subtree T q <> Some (NT "GEK" gch).
  Definition works (f : nat) (a : atree) : Prop := forall m p, asub top p = Some a -> enough f m p -> placed_gik m p a -> fine (outi f m p a).

  Lemma enough_child f m p i : enough f m p -> enough f m (p ++ [i]).
  Proof.
    intros [L|[L|[L C]]]; [left; exact L|right; left; exact L|right; right; split; [exact L|]]. intros r k ch E. rewrite <- app_assoc in E. exact (C _ _ _ E).
  Qed.
  Lemma asub_child p ty b n ch i c : asub top p = Some (ANT ty b n ch) -> nth_error ch i = Some c -> asub top (p ++ [i]) = Some c.
  Proof. intros A N. rewrite asub_app, A. cbn [asub]. rewrite N. reflexivity. Qed.

  Lemma kids_fine f m p ty b n ch : asub top p = Some (ANT ty b n ch) -> Forall (works f) ch -> enough f m p ->
    (speaks m = true -> ty <> "GEK") -> forall i l, (forall j c, nth_error l j = Some c -> nth_error ch (i + j) = Some c) ->
    Forall fine (outs f m p i l).
  Proof.
    intros A F EN G i l. revert i. induction l as [|c l IH]; intros i S; cbn [OutProofs.outs]; constructor.
    - specialize (S 0 c eq_refl). rewrite Nat.add_0_r in S. rewrite Forall_forall in F. apply (F c (nth_error_In _ _ S)).
      + exact (asub_child _ _ _ _ _ _ _ A S).
      + apply enough_child. exact EN.
      + intros _ SP q j gch Q E. apply app_inj_tail in Q. destruct Q as [<- _]. apply at_bare in A. rewrite A in E. injection E as E _. exact (G SP E).
    - apply IH. intros j d N. specialize (S (Datatypes.S j) d N). replace (Datatypes.S i + j) with (i + Datatypes.S j) by lia. exact S.
  Qed.
  Lemma kids_all f m p ty b n ch : asub top p = Some (ANT ty b n ch) -> Forall (works f) ch -> enough f m p ->
    (speaks m = true -> ty <> "GEK") -> Forall fine (outs f m p 0 ch).
  Proof. intros A F EN G. apply (kids_fine f m p ty b n ch A F EN G). auto. Qed.
  Lemma sub_fine k (l : list (outcome (list call))) : Forall fine l -> Forall fine (firstn k l) /\ Forall fine (skipn k l).
  Proof. intro F. rewrite <- (firstn_skipn k l) in F. apply Forall_app in F. exact F. Qed.

  Lemma word_calls_fine f m p ch w : Forall fine (outs f m p 0 ch) -> fine (with_word (fun m => outs f m p 0 ch) m w).
  Proof.
    intro F. destruct (sub_fine 1 _ F) as [F1 F2]. unfold with_word. apply fine_bind; [apply fine_turn; exact F1|]. intros a _.
    apply fine_bind; [apply fine_turn; exact F2|]. intros; apply fine_ok.
  Qed.

  Definition jumps (f : nat) : Prop := forall m q a, asub top q = Some a -> is_ant "GIK" a = false ->
    match f with S f => enough f m q | O => False end -> fine (jump f m q).

  Lemma calm_tag js k ch : subtree T js = Some (NT k ch) -> k = "JOIK" \/ k = "STAG" -> calm js.
  Proof.
    intros E K r k' ch' E'. unfold T in *. rewrite (subtree_app _ js r), E in E'.
    assert (IN : In k tag_kinds) by (destruct K; subst; vm_compute; tauto).
    assert (NA : k <> "AUGMENTED") by (destruct K; subst; discriminate).
    destruct (tag_below r k ch k' ch' (node_parsed t js _ _ PT E NA) IN E') as [I| ->].
    - destruct (tag_in k' I) as (_ & G1 & G2 & G3 & _). auto.
    - repeat split; discriminate.
  Qed.

  Lemma tag_fine f k p : jumps f -> 2 <= f -> In k (p_term_tags P p) -> fine (output_tag adv_translate top (jump f) k).
  Proof.
    intros J L I. destruct (or_tags _ _ _ _ _ _ OR p k I) as
      [q x w ty pos e E D A|tag cc tu2 n pos E N|q x s c ff pos e E D A|q n pos e s N A TM S|q n r x k' c ff pos e s N E D A TM S
      |q x s c ff pos E D|q n pos N|q x ys plus z pos e E D A]; cbn [output_tag].
    - destruct (at_leaf _ _ E) as (b & n & AS). unfold brivla_at. rewrite AS, D. cbn [obind]. rewrite A. cbn [obind]. apply fine_ok.
    - destruct (at_node _ _ _ E) as (b & k & ch' & AS & _). rewrite (number_fine _ _ N). apply fine_bind.
      + apply (J SHOW_TAG_TRANS tag _ AS eq_refl). destruct f as [|f']; [lia|]. right. left. split; [lia|reflexivity].
      + intros. cbn [obind]. apply fine_ok.
    - destruct (at_leaf _ _ E) as (b & n & AS). unfold cmavo_at. rewrite AS, D. cbn [obind]. rewrite A. cbn [obind]. apply fine_ok.
    - rewrite A. cbn [obind]. rewrite (number_fine _ _ N). cbn [obind]. rewrite (sprintf_template _ _ _ TM). cbn [obind].
      unfold short in S. rewrite put_fits by lia. cbn [obind]. apply fine_ok.
    - destruct (at_leaf _ _ E) as (b & n' & AS). unfold cmavo_at. rewrite AS, D. cbn [obind]. rewrite (number_fine _ _ N). cbn [obind]. rewrite A. cbn [obind].
      rewrite (sprintf_template _ _ _ TM). cbn [obind]. unfold short in S. rewrite put_fits by lia. cbn [obind]. apply fine_ok.
    - destruct (at_leaf _ _ E) as (b & n & AS). unfold cmavo_at. rewrite AS, D. cbn [obind]. apply fine_ok.
    - rewrite (number_fine _ _ N). cbn [obind]. apply fine_ok.
    - destruct (at_leaf _ _ E) as (b & n & AS). unfold zei_at. rewrite AS, D. cbn [obind]. rewrite A. cbn [obind]. apply fine_ok.
  Qed.

  Lemma connective_fine f m p ty b n ch : jumps f -> asub top p = Some (ANT ty b n ch) -> In ty connectives -> Forall (works f) ch ->
    enough f m p -> placed_gik m p (ANT ty b n ch) -> fine (output_connective translate P (jump f) (fun m => outs f m p 0 ch) m p).
  Proof.
    intros J A I F EN PG. unfold output_connective. apply fine_bind.
    - destruct (lojban m) eqn:LM; [|apply fine_ok]. apply fine_turn. eapply kids_all; [exact A|exact F| |discriminate].
      destruct EN as [L|[[_ Q]|[Q _]]]; [left; exact L|congruence|congruence].
    - intros r _. apply fine_bind; [|intros; apply fine_ok].
      change (english m || match m with SHOW_TAG_TRANS => true | _ => false end) with (speaks m).
      destruct (speaks m) eqn:SP; [|apply fine_ok]. cbn zeta.
      pose proof (at_bare _ _ A) as AB. cbn [bare] in AB.
      assert (SE : settled T (p_connective P p)).
      { rewrite CP. apply (connective_present t ws PT CW p ty _ AB I). intros -> q i gch Q. exact (PG eq_refl SP q i gch Q). }
      assert (JF : forall js k jch, subtree T js = Some (NT k jch) -> k = "JOIK" \/ k = "STAG" ->
        (exists pos n1 n2, p_connective P p = Some (Other pos js n1 n2)) ->
        fine (jump f match m with SHOW_TAG_TRANS => SHOW_TAG_TRANS | _ => SHOW_ENGLISH end js)).
      { intros js k jch EJ KJ (pos & n1 & n2 & PC). destruct (at_node _ _ _ EJ) as (b' & n' & ch' & AS & _). apply (J _ _ _ AS).
        - cbn [is_ant]. destruct KJ; subst k; reflexivity.
        - assert (LF : lojban match m with SHOW_TAG_TRANS => SHOW_TAG_TRANS | _ => SHOW_ENGLISH end = false) by (destruct m; reflexivity).
          destruct f as [|f']; [|right; right; split; [exact LF|exact (calm_tag _ _ _ EJ KJ)]].
          destruct EN as [L|[[L _]|[_ C]]]; [lia|lia|].
          (* a connective that jumps is not calm *)
          exfalso. destruct (C [] ty (map bare ch)) as (G1 & G2 & G3); [rewrite app_nil_r; exact AB|].
          destruct (parse_connectives t PT) as (ws' & W' & AF & _). fold T in W', AF. rewrite CW in W'. injection W' as <-.
          unfold connectives in I. cbn [In] in I. rewrite CP in PC.
          assert (exists core, In (ty, core) afterthought) as (core & IA).
          { destruct I as [<-|[<-|[<-|[<-|[<-|[I|[I|[I|[]]]]]]]]]; try congruence; cbn [In afterthought]; eauto 12. }
          destruct (AF p ty _ core AB IA) as (m' & x1 & c & x2 & _ & _ & _ & _ & Q). rewrite Q in PC. discriminate PC. }
      destruct (p_connective P p) as [[pos pat|pos js n1 n2]|] eqn:PC; cbn [settled] in SE; [| |contradiction].
      + destruct SE as [->|[->| ->]]; cbn [obind]; apply fine_ok.
      + destruct SE as [SE (k & jch & EJ & KJ)]. specialize (JF js k jch EJ KJ (ex_intro _ pos (ex_intro _ n1 (ex_intro _ n2 eq_refl)))).
        destruct SE as [->|[->|[->| ->]]]; try apply fine_ok; (apply fine_bind; [exact JF|intros; apply fine_ok]).
  Qed.

  Lemma first_nodes ty ch : parsed (NT ty ch) -> ty <> "AUGMENTED" -> forallb SN_all (alternatives ty) = true ->
    exists ss, In ss (alternatives ty) /\ Forall2 (fun s c => match s, c with SN k, NT k' _ => k = k' | _, _ => False end) ss ch.
  Proof.
    intros PN NA R. destruct (parsed_prod _ _ PN NA) as (ss & IS & F). exists ss. split; [exact IS|]. apply (alts _ _ R) in IS. clear - F IS.
    induction F; cbn [SN_all forallb] in IS; try discriminate IS; constructor; auto.
  Qed.

  Lemma inside_fine f m p ty b n ch : jumps f -> asub top p = Some (ANT ty b n ch) -> Forall (works f) ch -> enough f m p ->
    placed_gik m p (ANT ty b n ch) ->
    fine (output_inside translate adv_translate P top (jump f) (fun m => outs f m p 0 ch) m p ty b n ch).
  Proof.
    intros J A F EN PG. pose proof (at_bare _ _ A) as AB. cbn [bare] in AB.
    assert (KA : forall m', enough f m' p -> ty <> "GEK" -> Forall fine (outs f m' p 0 ch)).
    { intros m' EN' G. exact (kids_all f m' p ty b n ch A F EN' (fun _ => G)). }
    assert (LAI : lojban m = true -> fine (in_turn (outs f SHOW_LOJBAN_AND_INDICATORS p 0 ch))).
    { intro LM. apply fine_turn. eapply kids_all; [exact A|exact F| |discriminate].
      destruct EN as [L|[[_ Q]|[Q _]]]; [left; exact L|congruence|congruence]. }
    assert (EG : ty = "GEK" \/ ty <> "GEK") by (destruct (String.eqb_spec ty "GEK"); auto). unfold output_inside.
    destruct EG as [->|G]; [exact (connective_fine f m p "GEK" b n ch J A ltac:(cbn; tauto) F EN PG)|].
    specialize (KA m EN G) as K.
    destruct (String.eqb ty "SELBRI_3" && _); [exact (word_calls_fine _ _ _ _ _ K)|].
    destruct (String.eqb ty "TERM").
    { unfold output_term. apply fine_bind.
      - destruct (lojban m) eqn:LM; [|apply fine_ok]. destruct (p_term_tags P p) as [|k l] eqn:PTT; [apply fine_ok|].
        assert (L2 : 2 <= f) by (destruct EN as [L|[[_ Q]|[Q _]]]; [exact L|congruence|congruence]).
        apply fine_bind; [|intros; apply fine_ok]. apply fine_turn. apply Forall_map. rewrite Forall_forall. intros k' IK.
        apply (tag_fine f k' p J L2). rewrite PTT. exact IK.
      - intros tg _. apply fine_bind; [apply fine_turn; exact K|]. intros; apply fine_ok. }
    destruct (String.eqb ty "NO_CU_SENTENCE").
    { destruct (Nat.eqb _ _); [exact (word_calls_fine _ _ _ _ _ K)|apply fine_turn; exact K]. }
    destruct (String.eqb ty "OBSERVATIVE_SENTENCE") eqn:OB.
    { apply String.eqb_eq in OB. subst ty. pose proof (node_parsed t p _ _ PT AB ltac:(discriminate)) as PN.
      destruct (first_nodes _ _ PN ltac:(discriminate) ltac:(vm_compute; reflexivity)) as (ss & IS & F2).
      apply (alts _ _ obs_rule) in IS. apply andb_true_iff in IS. destruct IS as [_ N1]. apply Nat.eqb_eq in N1.
      destruct ch as [|c l]; [inversion F2; subst; discriminate N1|]. apply fine_turn. apply sub_fine. exact K. }
    destruct (String.eqb ty "TIME_OFFSET") eqn:TO.
    { apply String.eqb_eq in TO. subst ty. unfold output_simple_time_offset. apply fine_bind; [exact (time_fine p ch AB)|]. intros e _.
      apply fine_bind; [|intros; apply fine_ok]. destruct (lojban m) eqn:LM; [exact (LAI eq_refl)|apply fine_ok]. }
    destruct (one_of ty ["SPACE_INT_PROP"; "INTERVAL_PROPERTY"; "NUMBER_MOI_TU2"]) eqn:CL.
    { unfold output_clustered. apply fine_bind; [exact (cluster_fine p ty b n ch AB CL)|]. intros w _. cbn zeta.
      destruct (match translate _ with Some t => _ | None => _ end) as [e|] eqn:Q; [|apply fine_turn; exact K].
      apply fine_bind.
      - apply fine_put. destruct (translate (w ++ _)%string) eqn:Q1; [injection Q as <-; pose proof (entry_short _ _ Q1); lia|pose proof (entry_short _ _ Q); lia].
      - intros e' _. apply fine_bind; [|intros; apply fine_ok]. destruct (lojban m) eqn:LM; [exact (LAI eq_refl)|apply fine_ok]. }
    destruct (String.eqb ty "SUMTI_TAIL") eqn:ST.
    { apply String.eqb_eq in ST. subst ty. pose proof (node_parsed t p _ _ PT AB ltac:(discriminate)) as PN.
      destruct (first_nodes _ _ PN ltac:(discriminate) ltac:(vm_compute; reflexivity)) as (ss & IS & F2).
      assert (NE : ss <> []). { assert (R : forallb (fun ss => match ss with [] => false | _ => true end) (alternatives "SUMTI_TAIL") = true) by (vm_compute; reflexivity).
        apply (alts _ _ R) in IS. destruct ss; [discriminate IS|discriminate]. }
      unfold output_sumti_tail. destruct ch as [|[x b' n'|ty' b' n' cc] l]; [inversion F2; subst; contradiction| |].
      - exfalso. inversion F2 as [|s c ss' cs' H1 H2]; subst. cbn [bare] in H1. destruct s; exact H1.
      - destruct (is_ant "SUMTI_6" _); [|apply fine_turn; exact K].
        apply fine_bind.
        + destruct (lojban m) eqn:LM; [|apply fine_ok]. apply fine_bind; [|intros; apply fine_ok]. apply fine_turn. apply sub_fine.
          apply KA; [|discriminate]. destruct EN as [L|[[_ Q]|[Q _]]]; [left; exact L|congruence|congruence].
        + intros r1 _. apply fine_bind; [apply fine_turn; apply sub_fine; exact K|]. intros r2 _. apply fine_bind; [|intros; apply fine_ok].
          destruct (english m); [|apply fine_ok]. apply fine_bind; [|intros; apply fine_ok]. apply fine_turn. apply sub_fine. apply KA; [|discriminate].
          destruct EN as [L|[[L _]|[_ L]]]; [left; exact L|right; left; split; [exact L|reflexivity]|right; right; split; [reflexivity|exact L]]. }
    assert (Q : fine (if String.eqb ty "SUMTI_5A" && Nat.eqb (List.length ch) 2 then Ok true
                 else if String.eqb ty "SUMTI_TAIL_1" then quantified ch else Ok false)).
    { destruct (String.eqb ty "SUMTI_5A" && _); [apply fine_ok|]. destruct (String.eqb ty "SUMTI_TAIL_1") eqn:S1; [|apply fine_ok].
      apply String.eqb_eq in S1. subst ty. pose proof (node_parsed t p _ _ PT AB ltac:(discriminate)) as PN.
      destruct (first_nodes _ _ PN ltac:(discriminate) ltac:(vm_compute; reflexivity)) as (ss & IS & F2).
      assert (R : forallb (fun ss => match ss with [] => false | SN k :: ss => if String.eqb k "QUANTIFIER" then match ss with SN _ :: _ => true | _ => false end else true | _ => false end)
         (alternatives "SUMTI_TAIL_1") = true) by (vm_compute; reflexivity).
      apply (alts _ _ R) in IS. unfold quantified.
      destruct ch as [|[x b' n'|ty' b' n' cc] l]; [inversion F2; subst; discriminate IS|inversion F2 as [|s c ss' cs' H1 H2]; subst; cbn [bare] in H1; destruct s; contradiction|].
      inversion F2 as [|s c ss' cs' H1 H2]; subst. cbn [bare] in H1. destruct s as [k|tk|tk]; try contradiction. subst ty'.
      destruct (String.eqb k "QUANTIFIER"); [|apply fine_ok].
      destruct l as [|[x b2 n2|ty2 b2 n2 cc2] l]; [inversion H2; subst; discriminate IS| |apply fine_ok].
      inversion H2 as [|s c ss2 cs2 H3 H4]; subst. cbn [bare] in H3. destruct s; contradiction. }
    destruct Q as [q ->]. cbn [obind]. destruct q; [exact (word_calls_fine _ _ _ _ _ K)|].
    destruct (one_of ty ["JEK"; _; _; _; _; _; _; _]) eqn:CO; [|apply fine_turn; exact K].
    refine (connective_fine f m p ty b n ch J A _ F EN PG). unfold one_of in CO. apply existsb_exists in CO. destruct CO as (z & Z & Q).
    apply String.eqb_eq in Q. subst z. exact Z.
  Qed.

  Theorem all_work f : forall a, works f a.
  Proof.
    induction f as [f IHf] using lt_wf_ind. intro a.
    assert (J : jumps f).
    { intros m q c A G E. unfold OutProofs.jump. destruct f as [|f']; [contradiction|]. rewrite A. apply (IHf f' (Nat.lt_succ_diag_r _)); [exact A|exact E|].
      intros G'. congruence. }
    induction a as [x b n|ty b n ch IH] using atree_induct; intros m p A EN PG.
    - rewrite outi_leaf. apply leaf_fine. exact (at_bare _ _ A).
    - rewrite outi_nt. unfold output_node. apply fine_bind; [exact (inside_fine f m p ty b n ch J A IH EN PG)|]. intros; apply fine_ok.
  Qed.
  Theorem out_complete : exists cs, do_output translate adv_translate translate_unknown P top = Ok cs.
  Proof.
    apply (all_work 2 top SHOW_BOTH []); [reflexivity|left; lia|]. intros _ _ q i gch Q. destruct q; discriminate Q.
  Qed.
End TOTAL.
