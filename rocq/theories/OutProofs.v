(* Words, brackets and labels of the glossed output. *)
From Coq Require Import String Ascii List NArith ZArith Bool Arith Lia.
From Verif Require Import Base TokData CmavoData TokModel TreeModel TreeOutModel OutModel OutSpec.
From Verif Require Import ConnectModel.
Import TransModel(tctx).
Import ListNotations.
Open Scope string_scope.
Open Scope list_scope.

Section ATREE_IND.
  Variable Q : atree -> Prop.
  Hypothesis HL : forall x b n, Q (ALeaf x b n).
  Hypothesis HN : forall ty b n ch, Forall Q ch -> Q (ANT ty b n ch).
  Fixpoint atree_induct (a : atree) : Q a :=
    match a with
    | ALeaf x b n => HL x b n
    | ANT ty b n ch =>
        HN ty b n ch ((fix go (l : list atree) : Forall Q l :=
                         match l with [] => Forall_nil Q | c :: l => Forall_cons c (atree_induct c) (go l) end) ch)
    end.
End ATREE_IND.
Section TREE_IND.
  Variable Q : tree -> Prop.
  Hypothesis HL : forall x, Q (Leaf x).
  Hypothesis HN : forall ty ch, Forall Q ch -> Q (NT ty ch).
  Fixpoint tree_induct (t : tree) : Q t :=
    match t with
    | Leaf x => HL x
    | NT ty ch =>
        HN ty ch ((fix go (l : list tree) : Forall Q l :=
                     match l with [] => Forall_nil Q | c :: l => Forall_cons c (tree_induct c) (go l) end) ch)
    end.
End TREE_IND.

Lemma obind_inv {A B} (e : outcome A) (k : A -> outcome B) r : obind e k = Ok r -> exists a, e = Ok a /\ k a = Ok r.
Proof. destruct e; cbn [obind]; intro H; try discriminate H. eauto. Qed.
Ltac oinv H :=
  match type of H with
  | obind _ _ = Ok _ => let a := fresh "a" in let E := fresh "E" in apply obind_inv in H; destruct H as (a & E & H); cbn beta in H
  end.

Definition nobr (c : call) : bool := match c with Open _ _ | Close _ _ | Loj _ => false | _ => true end.
Definition skeleton (cs : list call) : list call := filter (fun c => negb (nobr c)) cs.
Lemma skeleton_app a b : skeleton (a ++ b) = skeleton a ++ skeleton b.
Proof. apply filter_app. Qed.
Lemma skeleton_say e : skeleton (say e) = [].
Proof. unfold say. destruct (String.eqb e ""); reflexivity. Qed.
Lemma skeleton_say_tag e : skeleton (say_tag e) = [].
Proof. unfold say_tag. destruct (String.eqb e ""); reflexivity. Qed.
Lemma skeleton_word m t : skeleton (word m t) = [].
Proof. destruct m; reflexivity. Qed.

(* words and brackets of an annotated tree *)
Fixpoint skel (el : path -> bool) (p : path) (a : atree) : list call :=
  match a with
  | ALeaf x b n =>
      match dat x with
      | N_ZEI _ _ _ => [Open b n; Loj (written (el p) x); Close b n]
      | _ => [Loj (written (el p) x)]
      end
  | ANT ty b n ch =>
      Open b n ::
      (fix go (i : nat) (l : list atree) : list call :=
         match l with [] => [] | c :: l => skel el (p ++ [i]) c ++ go (S i) l end) 0 ch ++ [Close b n]
  end.
Fixpoint skels (el : path -> bool) (p : path) (i : nat) (l : list atree) : list call :=
  match l with [] => [] | c :: l => skel el (p ++ [i]) c ++ skels el p (S i) l end.
Lemma skel_nt el p ty b n ch : skel el p (ANT ty b n ch) = Open b n :: skels el p 0 ch ++ [Close b n].
Proof.
  cbn [skel]. f_equal. f_equal. generalize 0. induction ch as [|c l IH]; intro i; cbn [skels]; [reflexivity|].
  rewrite IH. reflexivity.
Qed.

(* each observative sentence is a bridi tail *)
Fixpoint obs (a : atree) : Prop :=
  match a with
  | ALeaf _ _ _ => True
  | ANT ty _ _ ch =>
      (ty = "OBSERVATIVE_SENTENCE" -> List.length ch = 1) /\
      (fix all (l : list atree) : Prop := match l with [] => True | c :: l => obs c /\ all l end) ch
  end.
Lemma obs_kids ty b n ch : obs (ANT ty b n ch) -> Forall obs ch.
Proof. cbn [obs]. intros [_ H]. induction ch as [|c l IH]; constructor; tauto. Qed.

Section OUT.
  Variable translate : string -> option string.
  Variable adv_translate : string -> Z -> tctx -> outcome string.
  Variable translate_unknown : string -> Z -> tctx -> outcome (option string).
  Variable P : props.
  Variable top : atree.
  Notation outi := (output_internal translate adv_translate translate_unknown P top).
  Notation el := (p_elidable P).

  Fixpoint outs (f : nat) (m : mode) (p : path) (i : nat) (l : list atree) : list (outcome (list call)) :=
    match l with [] => [] | c :: l => outi f m (p ++ [i]) c :: outs f m p (S i) l end.
  Definition jump (f : nat) (m : mode) (q : path) : outcome (list call) :=
    match f with
    | O => NoFuel
    | S f => match asub top q with Some c => outi f m q c | None => UB UB_null end
    end.
  Lemma output_node_ext j k k' m p ty b n ch : (forall m, k m = k' m) ->
    output_node translate adv_translate P top j k m p ty b n ch = output_node translate adv_translate P top j k' m p ty b n ch.
  Proof.
    intro K. unfold output_node, output_inside, with_word, output_term, output_simple_time_offset, output_clustered,
      output_sumti_tail, output_connective. rewrite !K. reflexivity.
  Qed.
  Lemma outi_nt f m p ty b n ch :
    outi f m p (ANT ty b n ch) =
    output_node translate adv_translate P top (jump f) (fun m => outs f m p 0 ch) m p ty b n ch.
  Proof.
    assert (K : forall m, (fix each (i : nat) (l : list atree) : list (outcome (list call)) :=
                 match l with [] => [] | c :: l => outi f m (p ++ [i]) c :: each (S i) l end) 0 ch = outs f m p 0 ch).
    { intro m'. generalize 0. induction ch as [|c l IH]; intro i; cbn [outs]; [reflexivity|]. rewrite IH. reflexivity. }
    destruct f; cbn [output_internal];
      [transitivity (output_node translate adv_translate P top (jump 0) (fun m => (fix each (i : nat) (l : list atree) : list (outcome (list call)) :=
                 match l with [] => [] | c :: l => outi 0 m (p ++ [i]) c :: each (S i) l end) 0 ch) m p ty b n ch); [reflexivity|]
      |transitivity (output_node translate adv_translate P top (jump (S f)) (fun m => (fix each (i : nat) (l : list atree) : list (outcome (list call)) :=
                 match l with [] => [] | c :: l => outi (S f) m (p ++ [i]) c :: each (S i) l end) 0 ch) m p ty b n ch); [reflexivity|]].
    all: apply output_node_ext; exact K.
  Qed.
  Lemma outi_leaf f m p x b n : outi f m p (ALeaf x b n) = output_leaf translate adv_translate translate_unknown P top m p x b n.
  Proof. destruct f; reflexivity. Qed.

  Lemma in_turn_app l1 l2 cs : in_turn (l1 ++ l2) = Ok cs ->
    exists a b, in_turn l1 = Ok a /\ in_turn l2 = Ok b /\ cs = a ++ b.
  Proof.
    revert cs. induction l1 as [|r l1 IH]; cbn [in_turn app]; intros cs H.
    - exists [], cs. auto.
    - oinv H. oinv H. inversion H; subst. destruct (IH _ E0) as (x & y & Hx & Hy & ->).
      exists (a ++ x), y. rewrite Hx. cbn [obind]. rewrite app_assoc. auto.
  Qed.
  Lemma in_turn_split (k : nat) l cs a b : in_turn (firstn k l) = Ok a -> in_turn (skipn k l) = Ok b ->
    cs = a ++ b -> in_turn l = Ok cs.
  Proof.
    revert l cs a. induction k as [|k IH]; cbn [firstn skipn]; intros l cs a Ha Hb ->.
    - inversion Ha; subst. exact Hb.
    - destruct l as [|r l]; cbn [firstn skipn in_turn] in *.
      + inversion Ha; inversion Hb; subst. reflexivity.
      + oinv Ha. oinv Ha. inversion Ha; subst. cbn [obind].
        rewrite (IH l (a1 ++ b) a1 E0 Hb eq_refl). cbn [obind]. rewrite app_assoc. reflexivity.
  Qed.

  Lemma loj_written p x l e : word_and_translation translate adv_translate translate_unknown P top p x = Ok (l, e) ->
    match dat x with
    | N_ZEI _ _ _ => l
    | d => ((if starts_with_vowel l then "." else "") ++ l ++ match d with N_CMENE _ => "." | _ => "" end)%string
    end = written (el p) x.
  Proof.
    assert (app_nil : forall s, (s ++ "")%string = s) by (induction s; cbn; congruence).
    assert (V : forall s, ((if starts_with_vowel s then "." else "") ++ s)%string = paused s).
    { intros [|c s]; [reflexivity|]. unfold paused, starts_with_vowel, vowel.
      destruct c as [[] [] [] [] [] [] [] []]; reflexivity. }
    assert (V' : forall s, ((if starts_with_vowel s then "." else "") ++ s ++ "")%string = paused s).
    { intros s. rewrite app_nil. apply V. }
    unfold word_and_translation, written. destruct (dat x) as [t|w|s c ff|fo te tx|tx|tx|ys pl ze|w|w ty|w|d]; intro H;
      try discriminate H.
    - assert (K : (tok_eqb s T_UI || tok_eqb s T_CAI) = true /\
                  translate_indicator translate (cmavo_word c) (neg x) (cai x) = Ok (l, e) \/
                  (tok_eqb s T_UI || tok_eqb s T_CAI) = false /\
                  l = (if el p then make_uppercase (cmavo_word c) else cmavo_word c)).
      { destruct s; try (left; split; [reflexivity|exact H]); right; (split; [reflexivity|]); oinv H; inversion H; reflexivity. }
      destruct K as [[-> K] | [-> ->]]; [|apply V'].
      rewrite V'. f_equal. unfold translate_indicator in K. oinv K. oinv K. inversion K.
      assert (A : forall a b c : string, ((a ++ b) ++ c)%string = (a ++ b ++ c)%string) by (induction a1; cbn; congruence).
      rewrite A. destruct (cai x) as [[]|]; reflexivity.
    - oinv H. oinv H. inversion H; subst. rewrite V'. unfold put in E. destruct (N.ltb _ _); inversion E. reflexivity.
    - oinv H. oinv H. oinv H. inversion H; subst. rewrite app_nil. unfold put in E. destruct (N.ltb _ _); inversion E. reflexivity.
    - oinv H. oinv H. inversion H; subst. rewrite app_nil. unfold put in E. destruct (N.ltb _ _); inversion E. reflexivity.
    - oinv H. oinv H. unfold put in E. destruct (N.ltb _ _); inversion E. subst.
      destruct (match a0 with Some t => _ | None => _ end).
      + oinv H. inversion H. reflexivity.
      + oinv H. oinv H. inversion H. reflexivity.
    - oinv H. oinv H. inversion H; subst. rewrite V'. unfold put in E. destruct (N.ltb _ _); inversion E. reflexivity.
    - oinv H. oinv H. inversion H; subst. rewrite V'. unfold put in E. destruct (N.ltb _ _); inversion E. reflexivity.
    - oinv H. inversion H; subst. unfold put in E. destruct (N.ltb _ _); inversion E. subst.
      rewrite <- V.
      assert (A : forall a b c : string, ((a ++ b) ++ c)%string = (a ++ b ++ c)%string) by (induction a; cbn; congruence).
      rewrite A. reflexivity.
  Qed.

  Lemma leaf_skeleton m p x b n cs : output_leaf translate adv_translate translate_unknown P top m p x b n = Ok cs ->
    skeleton cs = if lojban m then skel el p (ALeaf x b n) else [].
  Proof.
    unfold output_leaf. intro H. oinv H. destruct a as [l e]. pose proof (loj_written p x l e E) as W.
    cbn [skel]. destruct (dat x) eqn:D; try (oinv H; unfold put in E0; destruct (N.ltb _ _); inversion E0; subst a);
      inversion H; subst cs; rewrite !skeleton_app;
      destruct m; cbn [lojban english]; rewrite ?skeleton_app, ?skeleton_say, ?skeleton_say_tag; cbn -[written paused bystander];
      rewrite ?W; try reflexivity.
    destruct (bystander selmao); [|reflexivity]. change (Loj (written (el p) x) :: skeleton (say e ++ [Eols (p_eols P p)]) = [Loj (written (el p) x)]).
    rewrite skeleton_app, skeleton_say. reflexivity.
  Qed.

  (* the words and brackets of a node, which are all shown in the Lojban modes *)
  Definition good (f : nat) (c : atree) : Prop := forall m p cs, (lojban m = true -> obs c) -> outi f m p c = Ok cs ->
    skeleton cs = if lojban m then skel el p c else [].
  (* tags have no words or brackets *)
  Lemma skel_outs f m p ch i cs :
    Forall (good f) ch -> (lojban m = true -> Forall obs ch) ->
    in_turn (outs f m p i ch) = Ok cs -> skeleton cs = if lojban m then skels el p i ch else [].
  Proof.
    intros F O. revert i cs. induction F as [|c l Hc Hl IH]; cbn [outs in_turn skels]; intros i cs H.
    - inversion H. destruct (lojban m); reflexivity.
    - oinv H. oinv H. inversion H; subst. rewrite skeleton_app, (Hc _ _ _ (fun L => Forall_inv (O L)) E), (IH (fun L => Forall_inv_tail (O L)) _ _ E0). destruct (lojban m); reflexivity.
  Qed.
  Lemma outs_length f m p i l : List.length (outs f m p i l) = List.length l.
  Proof. revert i; induction l; cbn; auto. Qed.
  Lemma firstn_outs f m p i c l : firstn 1 (outs f m p i (c :: l)) = outs f m p i [c].
  Proof. reflexivity. Qed.
  Lemma skipn_outs f m p i c l : skipn 1 (outs f m p i (c :: l)) = outs f m p (S i) l.
  Proof. reflexivity. Qed.

  Variable f : nat.
  Hypothesis jump_ok : forall m q cs, jump f m q = Ok cs -> lojban m = false -> skeleton cs = [].

  Lemma tag_skeleton t cs : output_tag adv_translate top (jump f) t = Ok cs -> skeleton cs = [].
  Proof.
    destruct t; cbn [output_tag]; intro H; repeat oinv H; try (inversion H; subst; reflexivity).
    - inversion H; subst. cbn [skeleton filter nobr negb]. rewrite skeleton_app, (jump_ok _ _ _ E) by reflexivity. reflexivity.
    - destruct a as [pl k]. oinv H. inversion H. reflexivity.
  Qed.
  Lemma tags_skeleton l cs : in_turn (map (output_tag adv_translate top (jump f)) l) = Ok cs -> skeleton cs = [].
  Proof.
    revert cs. induction l as [|t l IH]; cbn [map in_turn]; intros cs H; [inversion H; reflexivity|].
    oinv H. oinv H. inversion H. rewrite skeleton_app, (tag_skeleton _ _ E), (IH _ E0). reflexivity.
  Qed.

  Lemma connective_skeleton m p ch cs :
    Forall (good f) ch -> (lojban m = true -> Forall obs ch) ->
    output_connective translate P (jump f) (fun m => outs f m p 0 ch) m p = Ok cs ->
    skeleton cs = if lojban m then skels el p 0 ch else [].
  Proof.
    intros F O H. unfold output_connective in H. oinv H. oinv H. inversion H; subst. rewrite skeleton_app.
    assert (A : skeleton a = if lojban m then skels el p 0 ch else []).
    { destruct (lojban m); [exact (skel_outs _ SHOW_LOJBAN_AND_INDICATORS _ _ _ _ F (fun _ => O eq_refl) E)|inversion E; reflexivity]. }
    rewrite A. assert (B : skeleton a0 = []); [|rewrite B; apply app_nil_r].
    destruct (english m || _); [|inversion E0; reflexivity].
    destruct (p_connective P p) as [[pos pat|pos js n1 n2]|]; [| |discriminate E0].
    - oinv E0. inversion E0. destruct (translate _); [apply skeleton_word|reflexivity].
    - destruct pos; try discriminate E0.
      + inversion E0; reflexivity.
      + oinv E0. inversion E0. rewrite skeleton_app, (jump_ok _ _ _ E1) by (destruct m; reflexivity).
        destruct n2; rewrite ?skeleton_word; reflexivity.
      + inversion E0. destruct n1; rewrite ?skeleton_word; reflexivity.
      + oinv E0. inversion E0. rewrite skeleton_app, (jump_ok _ _ _ E1) by (destruct m; reflexivity).
        destruct n2; rewrite ?skeleton_word; reflexivity.
  Qed.

  Lemma word_skeleton m p ch w cs :
    Forall (good f) ch -> (lojban m = true -> Forall obs ch) ->
    with_word (fun m => outs f m p 0 ch) m w = Ok cs -> skeleton cs = if lojban m then skels el p 0 ch else [].
  Proof.
    intros F O H. unfold with_word in H. oinv H. oinv H. inversion H; subst.
    pose proof (in_turn_split 1 (outs f m p 0 ch) (a ++ a0) _ _ E E0 eq_refl) as K.
    apply (skel_outs _ _ _ _ _ _ F O) in K. rewrite !skeleton_app in *. destruct (english m); cbn [skeleton filter nobr negb app]; exact K.
  Qed.

  Lemma inside_skeleton m p ty b n ch cs : Forall (good f) ch -> (lojban m = true -> obs (ANT ty b n ch)) ->
    output_inside translate adv_translate P top (jump f) (fun m => outs f m p 0 ch) m p ty b n ch = Ok cs ->
    skeleton cs = if lojban m then skels el p 0 ch else [].
  Proof.
    intros F O0 H.
    assert (O : lojban m = true -> Forall obs ch) by (intro L; exact (obs_kids _ _ _ _ (O0 L))).
    unfold output_inside in H.
    destruct (String.eqb ty "SELBRI_3" && _); [exact (word_skeleton _ _ _ _ _ F O H)|].
    destruct (String.eqb ty "TERM").
    { unfold output_term in H. oinv H. oinv H. inversion H; subst. rewrite skeleton_app, (skel_outs _ _ _ _ _ _ F O E0).
      replace (skeleton a) with (@nil call); [reflexivity|]. destruct (lojban m); [|inversion E; reflexivity].
      destruct (p_term_tags P p) as [|t l]; [inversion E; reflexivity|]. oinv E. inversion E.
      cbn [skeleton filter nobr negb]. fold (skeleton (a1 ++ [EndTags])). rewrite skeleton_app, (tags_skeleton _ _ E1). reflexivity. }
    destruct (String.eqb ty "NO_CU_SENTENCE").
    { destruct (Nat.eqb _ _); [exact (word_skeleton _ _ _ _ _ F O H)|exact (skel_outs _ _ _ _ _ _ F O H)]. }
    destruct (String.eqb ty "OBSERVATIVE_SENTENCE") eqn:T.
    { apply String.eqb_eq in T. destruct ch as [|c l]; [discriminate H|]. rewrite firstn_outs in H.
      assert (F1 : Forall (good f) [c]) by (constructor; [exact (Forall_inv F)|constructor]).
      assert (O1 : lojban m = true -> Forall obs [c]) by (intro L; constructor; [exact (Forall_inv (O L))|constructor]).
      apply (skel_outs _ _ _ _ _ _ F1 O1) in H. rewrite H. destruct (lojban m); [|reflexivity].
      destruct (O0 eq_refl) as [N _]. specialize (N T). destruct l; [reflexivity|discriminate N]. }
    destruct (String.eqb ty "TIME_OFFSET").
    { unfold output_simple_time_offset in H. oinv H. oinv H. inversion H; subst. rewrite skeleton_app.
      assert (B : skeleton (if english m then say a ++ [Eols (p_eols P p)] else match m with SHOW_TAG_TRANS => say_tag a | _ => [] end) = []).
      { destruct m; cbn [english]; rewrite ?skeleton_app, ?skeleton_say, ?skeleton_say_tag; reflexivity. }
      rewrite B, app_nil_r. destruct (lojban m); [|inversion E0; reflexivity].
      exact (skel_outs _ SHOW_LOJBAN_AND_INDICATORS _ _ _ _ F (fun _ => O eq_refl) E0). }
    destruct (one_of ty ["SPACE_INT_PROP"; _; _]).
    { unfold output_clustered in H. oinv H. destruct (match translate _ with Some t => _ | None => _ end).
      - oinv H. oinv H. inversion H; subst. rewrite skeleton_app.
        assert (B : skeleton (if english m then [Eng a0] else []) = []) by (destruct (english m); reflexivity).
        rewrite B, app_nil_r. destruct (lojban m); [|inversion E1; reflexivity].
        exact (skel_outs _ SHOW_LOJBAN_AND_INDICATORS _ _ _ _ F (fun _ => O eq_refl) E1).
      - exact (skel_outs _ _ _ _ _ _ F O H). }
    destruct (String.eqb ty "SUMTI_TAIL").
    { unfold output_sumti_tail in H. destruct ch as [|[x b' n'|ty' b' n' cc] l]; [discriminate H|discriminate H|].
      destruct (is_ant "SUMTI_6" _); [|exact (skel_outs _ _ _ _ _ _ F O H)].
      rewrite skipn_outs, !firstn_outs in H. oinv H. oinv H. oinv H. inversion H; subst. rewrite !skeleton_app.
      set (c := ANT ty' b' n' cc) in *.
      assert (F1 : Forall (good f) [c]) by (constructor; [exact (Forall_inv F)|constructor]).
      assert (C : skeleton a1 = []).
      { destruct (english m); [|inversion E1; reflexivity]. oinv E1. inversion E1. cbn [skeleton filter nobr negb].
        apply (skel_outs _ SHOW_ENGLISH _ _ _ _ F1) in E2; [exact E2|intro L; discriminate L]. }
      assert (B : skeleton a0 = if lojban m then skels el p 1 l else []).
      { exact (skel_outs _ _ _ _ _ _ (Forall_inv_tail F) (fun L => Forall_inv_tail (O L)) E0). }
      rewrite B, C, app_nil_r. destruct (lojban m); [|inversion E; reflexivity].
      oinv E. inversion E. rewrite skeleton_app.
      apply (skel_outs _ SHOW_LOJBAN _ _ _ _ F1) in E2; [|intros _; constructor; [exact (Forall_inv (O eq_refl))|constructor]].
      rewrite E2. cbn [lojban skels skeleton filter nobr negb app]. rewrite !app_nil_r. reflexivity. }
    oinv H. destruct a; [exact (word_skeleton _ _ _ _ _ F O H)|].
    destruct (one_of ty ["JEK"; _; _; _; _; _; _; _]); [exact (connective_skeleton _ _ _ _ F O H)|].
    exact (skel_outs _ _ _ _ _ _ F O H).
  Qed.
End OUT.

Theorem out_skeleton translate adv unk P top f : forall a, good translate adv unk P top f a.
Proof.
  induction f as [|f IHf].
  all: intro a; induction a as [x b n|ty b n ch IH] using atree_induct; intros m p cs O H;
    [rewrite outi_leaf in H; exact (leaf_skeleton _ _ _ _ _ _ _ _ _ _ _ H)|rewrite outi_nt in H].
  all: unfold output_node in H; oinv H; apply inside_skeleton in E;
    [| |exact IH|exact O].
  2: intros m' q cs' J _; discriminate J.
  3: { intros m' q cs' J L. unfold jump in J. destruct (asub top q) as [c|]; [|discriminate J].
       apply IHf in J; [|intro L'; congruence]. rewrite L in J. exact J. }
  all: (destruct (lojban m); inversion H; subst; cbn [skeleton filter nobr negb];
    [fold (skeleton (a ++ [Close b n])); rewrite skeleton_app, E, skel_nt; reflexivity|exact E]).
Qed.
