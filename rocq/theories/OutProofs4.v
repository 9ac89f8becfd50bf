(* The glossed output of parse trees: translations of words. *)
From Coq Require Import String Ascii List NArith ZArith Bool Arith Lia.
From Verif Require Import Base TokData CmavoData TokModel StreamModel TreeModel TreeOutModel ErasureProofs GrammarData GramModel GramSpec
  GramProofs PassProofs2 ConnectModel ConnectSpec ConnectProofs ConnectProofs2.
From Verif Require Import OutModel OutSpec OutProofs OutProofs2 OutProofs3.
Import TransModel(tctx).
Import ListNotations.
Open Scope string_scope.
Open Scope list_scope.

Lemma put_ok n s r : put n s = Ok r -> r = s.
Proof. unfold put. destruct (N.ltb _ _); intro H; inversion H. reflexivity. Qed.

Section MEANS.
  Variable translate : string -> option string.
  Variable adv_translate : string -> Z -> tctx -> outcome string.
  Variable translate_unknown : string -> Z -> tctx -> outcome (option string).
  Variable P : props.
  Variable top : atree.
  Notation number := (OutSpec.number top).
  Notation means := (meaning translate adv_translate translate_unknown P number).
  Notation content := (content translate adv_translate translate_unknown P).
  Notation entry := (entry translate).

  Lemma convertible_content w p o : translate_convertible translate adv_translate translate_unknown P w p = Ok o -> content p w o.
  Proof.
    unfold translate_convertible. destruct (p_glosstype P p) as [[sel ter]|] eqn:G.
    - intro H. oinv H. inversion H; subst. eapply co_role; [exact G|]. unfold first_place, role.
      destruct ter, sel; exact E.
    - destruct (translate (w ++ _)%string) as [e|] eqn:T1.
      + intro H. inversion H; subst. apply co_place; assumption.
      + destruct (translate w) as [e|] eqn:T2.
        * intro H. inversion H; subst. apply co_word; assumption.
        * intro H. apply co_new; assumption.
  Qed.
  Lemma content_ok w p e : translate_content translate adv_translate translate_unknown P w p = Ok e ->
    exists o, content p w o /\ e = or_nothing o.
  Proof.
    unfold translate_content. intro H. oinv H. exists a. split; [exact (convertible_content _ _ _ E)|].
    destruct a; [exact (put_ok _ _ _ H)|inversion H; reflexivity].
  Qed.
  Lemma other_ok w e : translate_other_cmavo translate w = Ok e -> e = or_nothing (entry [w]).
  Proof.
    unfold translate_other_cmavo. cbn [OutSpec.entry]. destruct (translate w); intro H; [exact (put_ok _ _ _ H)|inversion H; reflexivity].
  Qed.
  Lemma attempt_ok w e : attempt_translation translate w = Ok e -> e = match translate w with Some e => e | None => "?" end.
  Proof. unfold attempt_translation. destruct (translate w); intro H; [exact (put_ok _ _ _ H)|inversion H; reflexivity]. Qed.

  Lemma indicator_ok p x s c f l e : dat x = N_CMAVO s c f -> s = T_UI \/ s = T_CAI ->
    translate_indicator translate (cmavo_word c) (neg x) (cai x) = Ok (l, e) -> means p x e.
  Proof.
    intros D S H. unfold translate_indicator in H. oinv H. oinv H. inversion H; subst.
    destruct (translate (cmavo_word c ++ _)%string) as [t|] eqn:T.
    - oinv E0. apply put_ok in E1, E0. subst.
      replace ("{" ++ (a ++ t) ++ "..}")%string with ("{" ++ a ++ t ++ "..}")%string.
      + refine (me_attitude _ _ _ _ _ _ _ s c f t a D S T _). destruct (cai x) as [d|]; [|inversion E; reflexivity].
        assert (K : substring 1 10 (degree (Some d)) = cai_key d) by (destruct d; reflexivity). rewrite K.
        destruct (translate (cai_key d)) as [i|]; [|discriminate E]. apply put_ok in E. eauto.
      + f_equal. clear. induction a; cbn; congruence.
    - inversion E0; subst. eapply me_indicator; eassumption.
  Qed.

  Lemma gloss_ok p x s c f e : dat x = N_CMAVO s c f -> s <> T_UI -> s <> T_CAI ->
    cmavo_gloss translate adv_translate translate_unknown P top p s (cmavo_word c) = Ok e -> means p x e.
  Proof.
    intros D N1 N2 H.
    (* words that have just one entry *)
    assert (O : forall e, translate_other_cmavo translate (cmavo_word c) = Ok e ->
      existsb (tok_eqb s) [T_UI; T_CAI; T_BAI; T_NU; T_PU; T_ZAhO; T_VA; T_FAhA; T_JAI] = false ->
      (s = T_SE \/ s = T_GOI -> p_dont_gloss P p = false) ->
      (s = T_KOhA -> cmavo_word c = "ke'a" -> forall r, p_rel_clause_link P p = Some r -> p_antecedent P r = None) -> means p x e).
    { intros e' O1 O2 O3 O4. apply other_ok in O1. subst e'.
      replace (entry [cmavo_word c]) with (entry (keys P p s (cmavo_word c))).
      - eapply me_cmavo; try eassumption. change [T_UI; T_CAI; T_BAI; T_NU; T_PU; T_ZAhO; T_VA; T_FAhA; T_JAI] with
          ([T_UI; T_CAI; T_BAI; T_NU] ++ [T_PU; T_ZAhO; T_VA; T_FAhA] ++ [T_JAI]) in O2. rewrite existsb_app in O2. apply orb_false_iff in O2. tauto.
      - change [T_UI; T_CAI; T_BAI; T_NU; T_PU; T_ZAhO; T_VA; T_FAhA; T_JAI] with
          ([T_UI; T_CAI; T_BAI; T_NU] ++ [T_PU; T_ZAhO; T_VA; T_FAhA] ++ [T_JAI]) in O2. rewrite !existsb_app in O2.
        apply orb_false_iff in O2. destruct O2 as [_ O2]. apply orb_false_iff in O2. destruct O2 as [O2 O5].
        unfold keys. rewrite O2. cbn [existsb] in O5. rewrite orb_false_r in O5. rewrite O5. reflexivity. }
    assert (B : s = T_BAI -> means p x e).
    { intros ->. cbn [cmavo_gloss] in H. unfold translate_bai in H. oinv H.
      assert (K : a = converted P p). { unfold converted. destruct (p_bai_conversion P p) as [[|[|[|[|[|[|]]]]]]|]; inversion E; reflexivity. }
      subst a. destruct (translate (converted P p ++ _)%string) as [t|] eqn:T.
      - apply put_ok in H. subst. eapply me_modal; eassumption.
      - replace e with (match translate (cmavo_word c) with Some e => e ++ " (CONV?)" | None => "?" end)%string.
        + eapply me_modal'; eassumption.
        + destruct (translate (cmavo_word c)); [symmetry; exact (put_ok _ _ _ H)|inversion H; reflexivity]. }
    assert (SG : s = T_SE \/ s = T_GOI -> means p x e).
    { intro S. assert (H' : translate_se_goi translate P p (cmavo_word c) = Ok e) by (destruct S; subst; exact H).
      unfold translate_se_goi in H'. destruct (p_dont_gloss P p) eqn:G.
      - inversion H'. eapply me_left_out; eassumption.
      - apply O; [exact H'|destruct S; subst; reflexivity|auto|intros ->; destruct S; discriminate]. }
    assert (K : s = T_KOhA -> means p x e).
    { intros ->. cbn [cmavo_gloss] in H. unfold translate_koha in H. oinv H.
      destruct (String.eqb (cmavo_word c) "ke'a") eqn:W.
      - apply String.eqb_eq in W. destruct (p_rel_clause_link P p) as [r|] eqn:L.
        + destruct (p_antecedent P r) as [q|] eqn:A.
          * oinv H. apply put_ok in H. subst. apply other_ok in E. subst a.
            cbn [OutSpec.entry]. rewrite W. replace (match translate "ke'a" with Some e => Some e | None => None end) with (translate "ke'a") by (destruct (translate "ke'a"); reflexivity).
            eapply me_keha; try eassumption. unfold number. unfold number_at in E0. destruct (asub top q) as [[|]|]; inversion E0. reflexivity.
          * inversion H; subst. apply O; [exact E|reflexivity|intros [Z|Z]; discriminate Z|]. intros _ _ r' R. congruence.
        + inversion H; subst. apply O; [exact E|reflexivity|intros [Z|Z]; discriminate Z|]. intros _ _ r' R. congruence.
      - inversion H; subst. apply O; [exact E|reflexivity|intros [Z|Z]; discriminate Z|]. intros _ W'. rewrite W' in W. discriminate W. }
    assert (NU : s = T_NU -> means p x e).
    { intros ->. cbn [cmavo_gloss] in H. destruct (content_ok _ _ _ H) as (o & C & ->). eapply me_nu; eassumption. }
    assert (TN : existsb (tok_eqb s) [T_PU; T_ZAhO; T_VA; T_FAhA] = true -> translate_tense translate P p (cmavo_word c) = Ok e -> means p x e).
    { intros S H'. replace e with (or_nothing (entry (keys P p s (cmavo_word c)))).
      - eapply me_cmavo; [exact D|..].
        + destruct s; try reflexivity; discriminate S.
        + intros [->| ->]; discriminate S.
        + intros ->. discriminate S.
      - unfold keys. rewrite S. unfold translate_tense in H'. destruct (p_tense_ctx P p) as [c'|].
        + unfold translate_tense_in_context in H'. cbn [app OutSpec.entry].
          replace (situation c') with (ctx_ending c') by (destruct c'; reflexivity).
          destruct (translate (cmavo_word c ++ _)%string); [symmetry; exact (put_ok _ _ _ H')|].
          destruct (translate (cmavo_word c)) eqn:TW; [symmetry; exact (put_ok _ _ _ H')|].
          unfold translate_other_cmavo in H'. rewrite TW in H'. inversion H'. reflexivity.
        + cbn [app]. symmetry. apply other_ok. exact H'. }
    assert (JA : s = T_JAI -> means p x e).
    { intros ->. cbn [cmavo_gloss] in H. replace e with (or_nothing (entry (keys P p T_JAI (cmavo_word c)))).
      - eapply me_cmavo; [exact D|reflexivity|intros [Z|Z]; discriminate Z|intro Z; discriminate Z].
      - unfold translate_jai in H. change (keys P p T_JAI (cmavo_word c)) with
          [(cmavo_word c ++ match p_glosstype P p with Some (true, true) => "_v" | Some (false, true) => "_n" | _ => "_a" end)%string; cmavo_word c].
        cbn [OutSpec.entry].
        match type of H with context [translate (cmavo_word c ++ ?a)%string] => match goal with |- context [translate (cmavo_word c ++ ?b)%string] => replace b with a end end.
        + destruct (translate (cmavo_word c ++ _)%string); [symmetry; exact (put_ok _ _ _ H)|]. symmetry.
          unfold translate_other_cmavo in H. destruct (translate (cmavo_word c)); [exact (put_ok _ _ _ H)|inversion H; reflexivity].
        + destruct (p_glosstype P p) as [[[] []]|]; reflexivity. }
    destruct s; try contradiction; try (apply B; reflexivity); try (apply SG; tauto); try (apply K; reflexivity); try (apply NU; reflexivity);
      try (apply TN; [reflexivity|exact H]); try (apply JA; reflexivity);
      (apply O; [exact H|reflexivity|intros [Z|Z]; discriminate Z|intro Z; discriminate Z]).
  Qed.

  Lemma zei_words_ok ys ws : zei_words translate ys = Ok ws ->
    Forall2 (fun y s => exists w, build_string_from_node y = Ok w /\ s = match translate w with Some e => e | None => "?" end) ys ws.
  Proof.
    revert ws. induction ys as [|y ys IH]; cbn [zei_words]; intros ws H; [inversion H; constructor|].
    oinv H. oinv H. inversion H; subst. constructor; eauto.
  Qed.

  Lemma word_means p x l e : word_and_translation translate adv_translate translate_unknown P top p x = Ok (l, e) -> means p x e.
  Proof.
    unfold word_and_translation. destruct (dat x) as [t|w|s c ff|fo te tx|tx|tx|ys pl ze|w|w ty|w|d] eqn:D; intro H; try discriminate H.
    - assert (K : (s = T_UI \/ s = T_CAI) /\ translate_indicator translate (cmavo_word c) (neg x) (cai x) = Ok (l, e) \/
                  s <> T_UI /\ s <> T_CAI /\ cmavo_gloss translate adv_translate translate_unknown P top p s (cmavo_word c) = Ok e).
      { destruct s; try (left; split; [tauto|exact H]); right; (split; [discriminate|split; [discriminate|]]); oinv H; inversion H; subst; exact E. }
      destruct K as [[S K]|(S1 & S2 & K)]; [eapply indicator_ok; eassumption|eapply gloss_ok; eassumption].
    - oinv H. oinv H. inversion H; subst. rewrite (attempt_ok _ _ E0). eapply me_quote; eassumption.
    - oinv H. oinv H. oinv H. inversion H; subst. apply put_ok in E1. subst. rewrite (attempt_ok _ _ E0). eapply me_word; eassumption.
    - oinv H. oinv H. inversion H; subst. rewrite (attempt_ok _ _ E0). eapply me_words; eassumption.
    - oinv H. oinv H. apply convertible_content in E0. destruct a0 as [t|]; [destruct (prefix "?" t) eqn:PF|].
      + cbn [negb] in H. oinv H. oinv H. inversion H; subst. apply put_ok in E2. subst. apply zei_words_ok in E1.
        eapply me_parts; [exact D|exact E0| |exact E1]. intros e' Q. congruence.
      + cbn [negb] in H. oinv H. inversion H; subst. apply put_ok in E1. subst. eapply me_zei; eassumption.
      + oinv H. oinv H. inversion H; subst. apply put_ok in E2. subst. apply zei_words_ok in E1.
        eapply me_parts; [exact D|exact E0| |exact E1]. intros e' Q. discriminate Q.
    - oinv H. oinv H. inversion H; subst. apply put_ok in E. subst. rewrite (attempt_ok _ _ E0). eapply me_letter; eassumption.
    - oinv H. oinv H. inversion H; subst. destruct (content_ok _ _ _ E0) as (o & C & ->). eapply me_brivla; eassumption.
    - oinv H. inversion H; subst. eapply me_name; eassumption.
  Qed.

  Notation outi := (output_internal translate adv_translate translate_unknown P top).
  Notation outs := (outs translate adv_translate translate_unknown P top).

  (* the calls for a word *)
  Lemma leaf_calls f p x b n cs : outi f SHOW_BOTH p (ALeaf x b n) = Ok cs ->
    exists e pre post, means p x e /\ cs = pre ++ Loj (written (p_elidable P p) x) :: say e ++ Eols (p_eols P p) :: post.
  Proof.
    rewrite outi_leaf. unfold output_leaf. intro H. oinv H. destruct a as [l e]. pose proof (word_means _ _ _ _ E) as M.
    apply loj_written in E. exists e. destruct (dat x) eqn:D; rewrite <- E; try (oinv H; apply put_ok in E0; subst a);
      inversion H; subst; cbn [lojban english app].
    all: try (exists [], []; split; [exact M|]; reflexivity).
    exists [Open b n], [Close b n]. split; [exact M|]. cbn [app]. rewrite <- app_assoc. reflexivity.
  Qed.

  Notation before := (fun p j i ch => map (text (p_elidable P)) (leaves_from p j (map bare (firstn i ch)))).
  (* the calls for a node show its words *)
  Lemma node_words f m p a cs : obs a -> lojban m = true -> outi f m p a = Ok cs -> shown_words cs = map (text (p_elidable P)) (leaves p (bare a)).
  Proof.
    intros O M H. pose proof (out_skeleton _ _ _ P top f a m p cs (fun _ => O) H) as K. rewrite M in K.
    rewrite <- shown_skeleton, K, skel_words. reflexivity.
  Qed.
  Lemma outs_split f p ch : Forall obs ch -> forall i j c cs, in_turn (outs f SHOW_BOTH p j ch) = Ok cs -> nth_error ch i = Some c ->
    exists pre r post, outi f SHOW_BOTH (p ++ [j + i]) c = Ok r /\ cs = pre ++ r ++ post /\ shown_words pre = before p j i ch.
  Proof.
    induction 1 as [|d l O OL IH]; intros i j c cs H N; [destruct i; discriminate N|]. cbn [OutProofs.outs in_turn] in H. oinv H. oinv H. inversion H; subst.
    destruct i as [|i].
    - inversion N; subst. exists [], a, a0. rewrite Nat.add_0_r. auto.
    - destruct (IH _ _ _ _ E0 N) as (pre & r & post & R & -> & B). exists (a ++ pre), r, post.
      replace (j + S i) with (S j + i) by lia. split; [exact R|]. split; [rewrite app_assoc; reflexivity|].
      cbn [firstn map leaves_from]. rewrite shown_app, map_app, B, (node_words f SHOW_BOTH _ _ _ O eq_refl E). reflexivity.
  Qed.
  Lemma in_word f p ch w cs i c : Forall obs ch -> with_word (fun m => outs f m p 0 ch) SHOW_BOTH w = Ok cs -> nth_error ch i = Some c ->
    exists pre r post, outi f SHOW_BOTH (p ++ [i]) c = Ok r /\ cs = pre ++ r ++ post /\ shown_words pre = before p 0 i ch.
  Proof.
    unfold with_word. intros O H N. oinv H. oinv H. inversion H; subst. destruct ch as [|d l]; [destruct i; discriminate N|].
    rewrite skipn_outs in E0. cbn [OutProofs.outs firstn in_turn] in E. oinv E. inversion E; subst. rewrite app_nil_r.
    destruct i as [|i].
    - inversion N; subst. exists [], a1, ([Eng w] ++ a0). cbn [english app]. auto.
    - inversion O as [|? ? O1 O2]; subst. destruct (outs_split f p l O2 i 1 c _ E0 N) as (pre & r & post & R & -> & B).
      exists (a1 ++ [Eng w] ++ pre), r, post. split; [exact R|]. split; [cbn [english]; rewrite <- !app_assoc; reflexivity|].
      cbn [firstn map leaves_from]. rewrite !shown_app, map_app, B, (node_words f SHOW_BOTH _ _ _ O1 eq_refl E1). reflexivity.
  Qed.

  Lemma own_gloss f a : obs a -> forall p q s cs, outi f SHOW_BOTH p a = Ok cs -> asub a q = Some s ->
    by_itself (bare a) q -> exists pre r post L1 L2, outi f SHOW_BOTH (p ++ q) s = Ok r /\ cs = pre ++ r ++ post /\
      leaves p (bare a) = L1 ++ leaves (p ++ q) (bare s) ++ L2 /\ shown_words pre = map (text (p_elidable P)) L1.
  Proof.
    induction a as [y b0 n0|ty b0 n0 ch IH] using atree_induct; intros O p q s cs H A B.
    - destruct q; [|discriminate A]. inversion A; subst. exists [], cs, [], [], []. rewrite !app_nil_r. auto.
    - destruct q as [|i q].
      { inversion A; subst. exists [], cs, [], [], []. rewrite !app_nil_r. auto. } cbn [asub] in A. destruct (nth_error ch i) as [c|] eqn:N; [|discriminate A].
      pose proof (obs_kids _ _ _ _ O) as OK.
      assert (W : exists pre r post, outi f SHOW_BOTH (p ++ [i]) c = Ok r /\ cs = pre ++ r ++ post /\ shown_words pre = before p 0 i ch).
      { rewrite outi_nt in H. unfold output_node in H. oinv H.
        assert (W : exists pre r post, outi f SHOW_BOTH (p ++ [i]) c = Ok r /\ a = pre ++ r ++ post /\ shown_words pre = before p 0 i ch);
          [|cbn [lojban] in H; inversion H; destruct W as (pre & r & post & R & -> & SW); exists (Open b0 n0 :: pre), r, (post ++ [Close b0 n0]);
            split; [exact R|]; split; [cbn [app]; rewrite <- !app_assoc; reflexivity|exact SW]].
        clear H. destruct (B [] i q ty (map bare ch) eq_refl eq_refl) as [NW NP].
        assert (T : in_turn (outs f SHOW_BOTH p 0 ch) = Ok a -> exists pre r post, outi f SHOW_BOTH (p ++ [i]) c = Ok r /\ a = pre ++ r ++ post /\ shown_words pre = before p 0 i ch).
        { intro H. exact (outs_split f p ch OK i 0 c a H N). }
        unfold output_inside in E.
        destruct (String.eqb ty "SELBRI_3" && _); [exact (in_word _ _ _ _ _ _ _ OK E N)|].
        destruct (String.eqb ty "TERM").
        { unfold output_term in E. oinv E. oinv E. inversion E; subst.
          destruct (outs_split f p ch OK i 0 c _ E1 N) as (pre & r & post & R & -> & SW).
          exists (a0 ++ pre), r, post. split; [exact R|]. split; [rewrite <- app_assoc; reflexivity|].
          rewrite shown_app, SW. assert (Z : shown_words a0 = []); [|rewrite Z; reflexivity].
          cbn [lojban] in E0. destruct (p_term_tags P p) as [|tt tl]; [inversion E0; reflexivity|]. oinv E0. inversion E0; subst.
          rewrite <- shown_skeleton. cbn [skeleton filter nobr negb]. fold (skeleton (a ++ [EndTags])). rewrite skeleton_app.
          refine (f_equal (fun s => shown_words (s ++ _)) (tags_skeleton _ _ _ P top f _ _ _ E2)).
          intros m' q' cs' J M. unfold jump in J. destruct f as [|f']; [discriminate J|]. destruct (asub top q') as [c'|]; [|discriminate J].
          rewrite (out_skeleton _ _ _ P top f' c' m' q' cs' (fun L => ltac:(congruence)) J), M. reflexivity. }
        destruct (String.eqb ty "NO_CU_SENTENCE").
        { destruct (Nat.eqb _ _); [exact (in_word _ _ _ _ _ _ _ OK E N)|exact (T E)]. }
        destruct (String.eqb ty "OBSERVATIVE_SENTENCE") eqn:OB.
        { apply String.eqb_eq in OB. destruct O as [O _]. specialize (O OB). destruct ch as [|c1 [|]]; try discriminate O.
          exact (T E). }
        unfold as_a_whole in NW.
        destruct (String.eqb ty "TIME_OFFSET") eqn:TO; [apply String.eqb_eq in TO; subst ty; discriminate NW|].
        destruct (one_of ty ["SPACE_INT_PROP"; _; _]) eqn:CL.
        { exfalso. unfold one_of in CL. apply existsb_exists in CL. destruct CL as (z & Z & Q). apply String.eqb_eq in Q. subst z.
          destruct Z as [<-|[<-|[<-|[]]]]; discriminate NW. }
        destruct (String.eqb ty "SUMTI_TAIL") eqn:ST.
        { apply String.eqb_eq in ST. unfold output_sumti_tail in E. destruct ch as [|[y b' n'|ty' b' n' cc] l]; [discriminate E|discriminate E|].
          destruct (is_ant "SUMTI_6" (ANT ty' b' n' cc)) eqn:S6; [|exact (T E)]. cbn [is_ant] in S6. apply String.eqb_eq in S6. subst ty'.
          destruct i as [|i]; [exfalso; apply NP; split; [exact ST|split; [reflexivity|]]; exists (map bare cc); reflexivity|].
          oinv E. oinv E. oinv E. inversion E; subst. rewrite skipn_outs in E1. cbn [nth_error] in N.
          inversion OK as [|? ? O1 O2]; subst.
          destruct (outs_split f p l O2 i 1 c _ E1 N) as (pre & r & post & R & -> & SW).
          exists (a0 ++ pre), r, (post ++ a2). split; [exact R|]. split; [rewrite <- !app_assoc; reflexivity|].
          rewrite shown_app, SW. cbn [firstn map leaves_from]. rewrite map_app. f_equal.
          cbn [lojban] in E0. oinv E0. inversion E0; subst. rewrite firstn_outs in E3. cbn [OutProofs.outs in_turn] in E3. oinv E3. inversion E3; subst.
          rewrite app_nil_r, shown_app. cbn [shown_words flat_map]. rewrite app_nil_r. exact (node_words f SHOW_LOJBAN _ _ _ O1 eq_refl E4). }
        oinv E. destruct a0; [exact (in_word _ _ _ _ _ _ _ OK E N)|].
        destruct (one_of ty ["JEK"; _; _; _; _; _; _; _]) eqn:CO; [|exact (T E)].
        exfalso. unfold one_of in CO. change ["JEK"; "JEK_OPT_KE"; "JEK_OPT_KEBO"; "EK"; "GIHEK"; "GEK"; "GIK"; "GUHEK"; "TIME_OFFSET";
    "SPACE_INT_PROP"; "INTERVAL_PROPERTY"; "NUMBER_MOI_TU2"] with (["JEK"; "JEK_OPT_KE"; "JEK_OPT_KEBO"; "EK"; "GIHEK"; "GEK"; "GIK"; "GUHEK"] ++ ["TIME_OFFSET";
    "SPACE_INT_PROP"; "INTERVAL_PROPERTY"; "NUMBER_MOI_TU2"]) in NW. rewrite existsb_app, CO in NW. discriminate NW. }
      destruct W as (pre & r & post & R & -> & SW). rewrite Forall_forall in IH. pose proof (nth_error_In _ _ N) as IN.
      assert (OC : obs c). { rewrite Forall_forall in OK. exact (OK c IN). }
      destruct (IH c IN OC (p ++ [i]) q s r R A) as (pre' & r' & post' & L1 & L2 & R' & -> & LV & SW').
      { intros q' i' r' k ch' Q S'. apply (B (i :: q') i' r' k ch'); [cbn [app]; congruence|]. cbn [bare subtree]. rewrite nth_error_map, N. exact S'. }
      rewrite <- app_assoc in R', LV. cbn [app] in R', LV.
      exists (pre ++ pre'), r', (post' ++ post), (leaves_from p 0 (map bare (firstn i ch)) ++ L1), (L2 ++ leaves_from p (S i) (map bare (skipn (S i) ch))).
      split; [exact R'|]. split; [rewrite <- !app_assoc; reflexivity|]. split; [|rewrite shown_app, map_app, SW, SW'; reflexivity].
      cbn [bare]. rewrite leaves_kids.
      assert (G : forall l j i, nth_error l i = Some c -> leaves_from p j (map bare l) =
        leaves_from p j (map bare (firstn i l)) ++ leaves (p ++ [j + i]) (bare c) ++ leaves_from p (S (j + i)) (map bare (skipn (S i) l))).
      { clear. induction l as [|d l IHl]; intros j i N; [destruct i; discriminate N|]. destruct i as [|i].
        - inversion N; subst. rewrite Nat.add_0_r. reflexivity.
        - cbn [map firstn leaves_from]. rewrite (IHl (S j) i N), <- app_assoc. cbn [skipn]. replace (S j + i) with (j + S i) by lia. reflexivity. }
      rewrite (G ch 0 i N). cbn [Nat.add]. rewrite LV, <- !app_assoc. reflexivity.
  Qed.
End MEANS.
