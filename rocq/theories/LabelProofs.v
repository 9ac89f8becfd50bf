From Coq Require Import String Ascii List NArith ZArith Bool Arith Lia.
From Verif Require Import Base TokData CmavoData TokModel TreeModel TreeOutModel GrammarData GramModel GramSpec GramProofs PassModel PassSpec
  OutModel OutSpec OutProofs OutProofs2 OutProofs3 OutProofs4 OutProofs5 OutProofs6 OutProofs7 OutProofs8 OutProofs9 LabelSpec.
Import TransModel(tctx, zdec).
Import ListNotations.
Open Scope string_scope.
Open Scope list_scope.

Section LABEL.
  Variable translate : string -> option string.
  Variable adv_translate : string -> Z -> tctx -> outcome string.
  Variable translate_unknown : string -> Z -> tctx -> outcome (option string).
  Variable P : props.
  Variable rb : path -> bool.
  Variable t : tree.
  Hypothesis PT : parse_tree t.
  Let T := expand_bahe_ui t.
  Let top := add_bracketing_tags rb T.
  Let out := do_output translate adv_translate translate_unknown P top.
  Notation text := (fun e : path * node => written (p_elidable P (fst e)) (snd e)).
  Notation outs := (OutProofs.outs translate adv_translate translate_unknown P top).
  Notation jump := (OutProofs.jump translate adv_translate translate_unknown P top).

  Lemma number_ok q n : number_at top q = Ok n -> number top q = Some n.
  Proof. unfold number_at, number. destruct (asub top q) as [[|]|]; intro H; try discriminate H. injection H as ->. reflexivity. Qed.
  Lemma numbered_ok e n f s : sprintf_d e n false = Ok f -> put 1024 f = Ok s -> numbered e n s.
  Proof. intros A B s' M. apply put_ok in B. subst s. rewrite (sprintf_template _ _ _ M) in A. injection A as ->. reflexivity. Qed.
  Lemma cmavo_ok q w : OutModel.cmavo_at top q = Ok w -> exists x s c f, subtree (bare top) q = Some (Leaf x) /\ dat x = N_CMAVO s c f /\ w = cmavo_word c.
  Proof.
    unfold OutModel.cmavo_at. destruct (asub top q) as [[x b n|]|] eqn:A; intro H; try discriminate H. apply asub_bare in A. cbn [bare] in A.
    destruct (dat x) eqn:D; try discriminate H. injection H as <-. do 4 eexists. split; [exact A|]. split; [exact D|reflexivity].
  Qed.
  Lemma tag_shown f k cs : output_tag adv_translate top (jump f) k = Ok cs -> label_shown adv_translate top k cs.
  Proof.
    destruct k as [q pos|tag tu2 pos|q pos|q pos|q r pos|q pos|q pos|q pos]; cbn [output_tag]; intro H.
    - oinv H. oinv H. injection H as <-. unfold brivla_at in E. destruct (asub top q) as [[x b n|]|] eqn:A; try discriminate E. apply asub_bare in A.
      destruct (dat x) eqn:D; try discriminate E. injection E as ->. eapply ls_brivla; eauto.
    - oinv H. oinv H. injection H as <-. apply number_ok in E0.
      assert (L : tagwise SHOW_TAG_TRANS a).
      { unfold OutProofs.jump in E. destruct f as [|f']; [discriminate E|]. destruct (asub top tag) as [c|]; [|discriminate E].
        exact (out_labels translate adv_translate translate_unknown P top f' c _ _ _ E). }
      cbn [tagwise] in L. exact (ls_jai adv_translate top tag tu2 a0 pos a E0 L).
    - oinv H. oinv H. injection H as <-. destruct (cmavo_ok _ _ E) as (x & s & c & g & A & D & ->). eapply ls_nu; eauto.
    - oinv H. oinv H. oinv H. oinv H. injection H as <-. apply number_ok in E0. eapply ls_me; eauto using numbered_ok.
    - oinv H. oinv H. oinv H. oinv H. oinv H. injection H as <-. apply number_ok in E0. destruct (cmavo_ok _ _ E) as (x & s & c & g & A & D & ->).
      eapply ls_moi; eauto using numbered_ok.
    - oinv H. injection H as <-. destruct (cmavo_ok _ _ E) as (x & s & c & g & A & D & ->). eapply ls_goha; eauto.
    - oinv H. injection H as <-. apply number_ok in E. eapply ls_nuha; eauto.
    - oinv H. destruct a as [plus n]. oinv H. injection H as <-. unfold zei_at in E. destruct (asub top q) as [[x b m|]|] eqn:A; try discriminate E.
      destruct (dat x) eqn:D; try discriminate E. injection E as -> ->. eapply ls_zei; eauto.
  Qed.
  Lemma tags_shown f l cs : in_turn (map (output_tag adv_translate top (jump f)) l) = Ok cs ->
    exists ls, Forall2 (label_shown adv_translate top) l ls /\ cs = concat ls.
  Proof.
    revert cs. induction l as [|k l IH]; cbn [map in_turn]; intros cs H; [injection H as <-; exists []; split; [constructor|reflexivity]|].
    oinv H. oinv H. injection H as <-. destruct (IH _ E0) as (ls & F & ->). exists (a :: ls). split; [constructor; [exact (tag_shown _ _ _ E)|exact F]|reflexivity].
  Qed.

  Theorem out_term_labels cs q ch : out = Ok cs -> subtree T q = Some (NT "TERM" ch) -> by_itself T q ->
    exists b n ls pre mid post L1 L2, Forall2 (label_shown adv_translate top) (p_term_tags P q) ls /\
      cs = pre ++ Open b n :: all_labels ls ++ mid ++ Close b n :: post /\
      leaves [] T = L1 ++ leaves q (NT "TERM" ch) ++ L2 /\
      shown_words pre = map text L1 /\ shown_words mid = map text (leaves q (NT "TERM" ch)) /\ shown_words post = map text L2.
  Proof.
    intros H E B. pose proof (out_words translate adv_translate translate_unknown P rb t PT cs H) as OW.
    rewrite <- (bare_tags rb T) in E, B. destruct (subtree_asub _ _ _ E) as ([y b n|ty' b n ch'] & A & Q); inversion Q; subst ty'.
    pose proof (parse_obs rb t PT) as OB. fold T in OB.
    destruct (own_gloss translate adv_translate translate_unknown P top 2 top OB [] q (ANT "TERM" b n ch') cs H A B)
      as (pre & r & post & L1 & L2 & R & -> & LV & SW). cbn [app] in R, LV. unfold top in LV at 1. rewrite bare_tags in LV.
    assert (OC : obs (ANT "TERM" b n ch')) by exact (obs_sub q top _ A OB). apply obs_kids in OC.
    rewrite outi_nt in R. unfold output_node in R. oinv R. cbn [lojban] in R. injection R as <-.
    unfold output_inside in E0. cbn [String.eqb Ascii.eqb Bool.eqb andb] in E0. unfold output_term in E0. oinv E0. oinv E0. injection E0 as <-. cbn [lojban] in E1.
    assert (LS : exists ls, Forall2 (label_shown adv_translate top) (p_term_tags P q) ls /\ a0 = all_labels ls /\ shown_words a0 = []).
    { destruct (p_term_tags P q) as [|k l] eqn:TT; [injection E1 as <-; exists []; split; [constructor|split; reflexivity]|].
      oinv E1. injection E1 as <-. destruct (tags_shown 2 (k :: l) a E0) as (ls & F & ->). exists ls. split; [exact F|]. split; [inversion F; subst; reflexivity|].
      assert (G : forall l ls, Forall2 (label_shown adv_translate top) l ls -> shown_words (concat ls) = []).
      { clear. induction 1 as [|k c l ls K _ IH]; [reflexivity|]. cbn [concat]. rewrite shown_app, IH, app_nil_r. destruct K; try reflexivity.
        cbn [shown_words flat_map]. change (flat_map (fun c : call => match c with Loj s => [s] | _ => [] end)) with shown_words. rewrite shown_app. cbn [shown_words flat_map app].
        match goal with R : forallb label_call r = true |- _ => clear - R; induction r as [|c r IH]; [reflexivity|]; cbn [forallb] in R; apply andb_true_iff in R; destruct R as [R1 R2];
          destruct c; try discriminate R1; exact (IH R2) end. }
      change (shown_words (StartTags :: concat ls ++ [EndTags])) with (shown_words (concat ls ++ [EndTags])). rewrite shown_app, (G _ _ F). reflexivity. }
    destruct LS as (ls & F & -> & SL).
    assert (KW := kid_words translate adv_translate translate_unknown P rb t 2 SHOW_BOTH q ch' a1 OC eq_refl E2).
    assert (HM : map bare ch' = ch) by (inversion Q; reflexivity). cbn [bare] in LV. rewrite HM in LV. rewrite HM, <- leaves_kids with (ty := "TERM") in KW. rewrite ?HM.
    exists b, n, ls, pre, a1, post, L1, L2. split; [exact F|]. split; [cbn [app]; rewrite <- !app_assoc; cbn [app]; reflexivity|].
    split; [exact LV|]. split; [exact SW|]. split; [exact KW|].
    fold T in OW. rewrite LV in OW. rewrite !shown_app in OW. change (shown_words (Open b n :: (all_labels ls ++ a1) ++ [Close b n])) with (shown_words ((all_labels ls ++ a1) ++ [Close b n])) in OW.
    rewrite !shown_app, SL, !map_app, SW, KW in OW. cbn [app shown_words flat_map] in OW. rewrite app_nil_r in OW.
    apply app_inv_head in OW. apply app_inv_head in OW. exact OW.
  Qed.
End LABEL.

From Verif Require Import WalkModel WalkSpec WalkProofs8.

Section WALK.
  Variable translate : string -> option string.
  Variable adv_translate : string -> Z -> tctx -> outcome string.
  Variable translate_unknown : string -> Z -> tctx -> outcome (option string).
  Variable P : props.
  Variable rb : path -> bool.
  Variable t : tree.
  Hypothesis PT : parse_tree t.
  Let T := expand_bahe_ui t.
  Let top := add_bracketing_tags rb T.
  Let out := do_output translate adv_translate translate_unknown P top.
  Notation text := (fun e : path * node => written (p_elidable P (fst e)) (snd e)).
  Variable es : list effect.
  Hypothesis R : terms_processing T = Ok es.

  Theorem term_called cs q ch : (forall x l, In l (p_term_tags P x) <-> In (Tagged x l) es) -> out = Ok cs -> subtree T q = Some (NT "TERM" ch) -> by_itself T q ->
    exists tags b n ls pre mid post L1 L2, (forall l, In l tags <-> called T q l) /\ Forall2 (label_shown adv_translate top) tags ls /\
      cs = pre ++ Open b n :: all_labels ls ++ mid ++ Close b n :: post /\
      leaves [] T = L1 ++ leaves q (NT "TERM" ch) ++ L2 /\
      shown_words pre = map text L1 /\ shown_words mid = map text (leaves q (NT "TERM" ch)) /\ shown_words post = map text L2.
  Proof.
    intros HT H E B. destruct (out_term_labels translate adv_translate translate_unknown P rb t PT cs q ch H E B) as (b & n & ls & pre & mid & post & L1 & L2 & F & Q).
    exists (p_term_tags P q), b, n, ls, pre, mid, post, L1, L2. split; [|split; [exact F|exact Q]].
    intro l. rewrite HT. apply (tree_labels t es PT R).
  Qed.

  Lemma node_number q ty ch : subtree T q = Some (NT ty ch) -> exists n, number top q = Some n.
  Proof. intro E. destruct (OutProofs7.bracketed rb t q ty ch E) as (b & n & ch' & A & _). exists n. unfold number, top, T. rewrite A. reflexivity. Qed.
  Lemma cmtest_dat x s : cmtest x s = true -> exists c f, dat x = N_CMAVO s c f.
  Proof. unfold cmtest. destruct (dat x) eqn:D; try discriminate. intro Q. apply ErasureProofs.tok_eqb_eq in Q. subst. eauto. Qed.
  Theorem tags_ok x l : (forall q n, number top q = Some n -> few_digits n) -> complete_places adv_translate T -> In (Tagged x l) es -> tag_ok adv_translate (number top) T l.
  Proof.
    intros FD C I. destruct (tree_refer t es PT R x l I) as (_ & RF & PL).
    destruct RF as [q y w ty n E D|q y a b z n E D|q y n E CX|q y n E CX|q ch n E B|q ch n E B|q k ch r y n E ER CX|q ch r cc n E ER B]; cbn [place_of] in PL.
    - destruct (C w n (pw_brivla T _ _ _ _ E D) PL) as (e & A & _). eapply tg_brivla; eauto.
    - destruct (C b n (pw_zei T _ _ _ _ _ E D) PL) as (e & A & _). eapply tg_zei; eauto.
    - destruct (cmtest_dat _ _ CX) as (c & f & D). eapply tg_goha; eauto.
    - destruct (cmtest_dat _ _ CX) as (c & f & D). destruct (C (cmavo_word c) n (pw_cmavo T _ _ _ _ _ E D) PL) as (e & A & _). eapply tg_nu; eauto.
    - destruct (node_number _ _ _ E) as (m & N). destruct (C "me" n (pw_me T) PL) as (e & A & TM). destruct (TM m (FD _ _ N)) as (s & T1 & T2). eapply tg_me; eauto.
    - destruct (node_number _ _ _ E) as (m & N). eapply tg_nuha; eauto.
    - destruct (node_number _ _ _ E) as (m & N). destruct (cmtest_dat _ _ CX) as (c & f & D). destruct (C (cmavo_word c) n (pw_cmavo T _ _ _ _ _ ER D) PL) as (e & A & TM).
      destruct (TM m (FD _ _ N)) as (s & T1 & T2). eapply tg_moi; eauto.
    - destruct (node_number _ _ _ ER) as (m & N). eapply tg_jai; eauto.
  Qed.
  Theorem label_number cs x l q : (forall q, In (Brackets q) es -> rb q = true) -> out = Ok cs -> In (Tagged x l) es -> by_number l q ->
    exists s b n pre mid post, subtree T q = Some s /\ number top q = Some n /\ n <> 0 /\ cs = pre ++ Open b n :: mid ++ Close b n :: post /\ nested mid /\
      shown_words mid = map text (leaves q s).
  Proof.
    intros HB H I BN. destruct (tree_refer t es PT R x l I) as (_ & RF & _).
    assert (G : exists ty ch, subtree T q = Some (NT ty ch) /\ In ty ["SUMTI"; "MEX_OPERATOR"; "TANRU_UNIT_2"] /\ rb q = true).
    { destruct BN as [q n|q n|r q n]; inversion RF; subst; do 2 eexists; (split; [eassumption|]); (split; [cbn; auto|]); apply HB; assumption. }
    destruct G as (ty & ch & E & IT & BT). destruct (OutProofs7.bracketed rb t q ty ch E) as (b & n & ch' & A & M & BR & N).
    destruct (out_extent translate adv_translate translate_unknown P rb t PT cs _ _ H A) as (pre & mid & post & L1 & L2 & -> & NM & _ & _ & S2 & _).
    exists (NT ty ch), b, n, pre, mid, post. split; [exact E|]. split; [unfold number, top, T; rewrite A; reflexivity|].
    split; [apply N; rewrite BR, BT; destruct IT as [<-|[<-|[<-|[]]]]; unfold brackets_of; cbn; try rewrite orb_true_r; discriminate|].
    split; [reflexivity|]. split; [exact NM|]. cbn [bare] in S2. rewrite M in S2. exact S2.
  Qed.
End WALK.
