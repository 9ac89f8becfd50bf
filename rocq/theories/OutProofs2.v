(* Words, brackets and labels of the glossed output: whole texts. *)
From Coq Require Import String Ascii List NArith ZArith Bool Arith Lia.
From Verif Require Import Base TokData CmavoData TokModel TreeModel TreeOutModel OutModel OutSpec OutProofs.
From Verif Require Import ConnectModel.
Import TransModel(tctx).
Import ListNotations.
Open Scope string_scope.
Open Scope list_scope.

(* ---------- words and brackets ---------- *)

Lemma shown_app a b : shown_words (a ++ b) = shown_words a ++ shown_words b.
Proof. apply flat_map_app. Qed.
Lemma opened_app a b : opened (a ++ b) = opened a ++ opened b.
Proof. apply flat_map_app. Qed.
Lemma shown_skeleton cs : shown_words (skeleton cs) = shown_words cs.
Proof. induction cs as [|[] cs IH]; cbn; first [exact IH | f_equal; exact IH | reflexivity]. Qed.
Lemma opened_skeleton cs : opened (skeleton cs) = opened cs.
Proof. induction cs as [|[[]|[]| | | | | | | |] cs IH]; cbn; first [exact IH | f_equal; exact IH | reflexivity]. Qed.

Lemma nested_app l1 l2 : nested l1 -> nested l2 -> nested (l1 ++ l2).
Proof.
  induction 1 as [|c l Hc Hl IH|b n l l' Hl IHl Hl' IHl']; intro H; cbn [app]; [exact H|constructor; auto|].
  rewrite <- app_assoc. cbn [app]. apply ne_pair; auto.
Qed.
Lemma skeleton_split cs A c B : skeleton cs = A ++ c :: B ->
  exists pre post, cs = pre ++ c :: post /\ skeleton pre = A /\ skeleton post = B.
Proof.
  revert A. induction cs as [|d cs IH]; cbn [skeleton filter]; intros A H; [destruct A; discriminate H|].
  fold (skeleton cs) in H. destruct (negb (nobr d)) eqn:N.
  - destruct A as [|a A]; cbn [app] in H; inversion H; subst.
    + exists [], cs. auto.
    + destruct (IH A H2) as (pre & post & -> & E1 & E2). exists (a :: pre), post. cbn [skeleton filter]. rewrite N.
      fold (skeleton pre). rewrite E1. auto.
  - destruct (IH A H) as (pre & post & -> & E1 & E2). exists (d :: pre), post. cbn [skeleton filter]. rewrite N.
    fold (skeleton pre). auto.
Qed.
Lemma nested_skeleton s : nested s -> forall cs, skeleton cs = s -> nested cs.
Proof.
  assert (Z : forall cs, skeleton cs = [] -> nested cs).
  { induction cs as [|d cs IH]; cbn [skeleton filter]; [constructor|]. destruct (negb (nobr d)) eqn:N; [discriminate|].
    intro H. constructor; [destruct d; try reflexivity; discriminate N|exact (IH H)]. }
  induction 1 as [|c l Hc Hl IH|b n l l' Hl IHl Hl' IHl']; intros cs H; [exact (Z _ H)| |].
  - destruct (skeleton_split cs [] c l H) as (pre & post & -> & E1 & E2). apply nested_app; [exact (Z _ E1)|].
    constructor; [exact Hc|exact (IH _ E2)].
  - destruct (skeleton_split cs [] (Open b n) (l ++ Close b n :: l') H) as (pre & post & -> & E1 & E2).
    destruct (skeleton_split post l (Close b n) l' E2) as (mid & post' & -> & E3 & E4).
    apply nested_app; [exact (Z _ E1)|]. apply ne_pair; auto.
Qed.

(* annotated trees *)
Lemma leaves_nt p ty ch : leaves p (NT ty ch) =
  (fix go (i : nat) (l : list tree) := match l with [] => [] | c :: l => leaves (p ++ [i]) c ++ go (S i) l end) 0 ch.
Proof. reflexivity. Qed.
Fixpoint leaves_from (p : path) (i : nat) (l : list tree) : list (path * node) :=
  match l with [] => [] | c :: l => leaves (p ++ [i]) c ++ leaves_from p (S i) l end.
Lemma leaves_kids p ty ch : leaves p (NT ty ch) = leaves_from p 0 ch.
Proof.
  cbn [leaves]. generalize 0. induction ch as [|c l IH]; intro i; cbn [leaves_from]; [reflexivity|]. rewrite IH. reflexivity.
Qed.

Section SKEL.
  Variable el : path -> bool.
  Definition text (e : path * node) : string := written (el (fst e)) (snd e).

  Lemma skel_words a : forall p, shown_words (skel el p a) = map text (leaves p (bare a)).
  Proof.
    induction a as [x b n|ty b n ch IH] using atree_induct; intro p.
    - cbn [skel bare leaves map]. destruct (dat x) eqn:D; reflexivity.
    - rewrite skel_nt. cbn [bare]. rewrite leaves_kids. cbn [shown_words flat_map app].
      fold (shown_words (skels el p 0 ch ++ [Close b n])). rewrite shown_app. cbn [shown_words flat_map]. rewrite app_nil_r.
      generalize 0. induction IH as [|c l Hc Hl IHl]; intro i; [reflexivity|].
      cbn [skels map leaves_from]. rewrite shown_app, map_app, Hc, IHl. reflexivity.
  Qed.
  Lemma skel_nested a : forall p, nested (skel el p a).
  Proof.
    induction a as [x b n|ty b n ch IH] using atree_induct; intro p.
    - cbn [skel]. destruct (dat x); try (repeat constructor; fail).
      apply (ne_pair b n [Loj _] []); repeat constructor.
    - rewrite skel_nt. apply (ne_pair b n _ []); [|constructor].
      generalize 0. induction IH as [|c l Hc Hl IHl]; intro i; cbn [skels]; [constructor|]. apply nested_app; auto.
  Qed.

  (* the part of a node *)
  Lemma skel_part a : forall p q s, asub a q = Some s ->
    exists A B L1 L2, skel el p a = A ++ skel el (p ++ q) s ++ B /\ leaves p (bare a) = L1 ++ leaves (p ++ q) (bare s) ++ L2 /\
      shown_words A = map text L1 /\ shown_words B = map text L2.
  Proof.
    induction a as [x b n|ty b n ch IH] using atree_induct; intros p q s H.
    - destruct q; inversion H; subst. exists [], [], [], []. rewrite !app_nil_r. auto.
    - destruct q as [|j q].
      + inversion H; subst. exists [], [], [], []. rewrite !app_nil_r. auto.
      + cbn [asub] in H. destruct (nth_error ch j) as [c|] eqn:N; [|discriminate H].
        rewrite skel_nt. cbn [bare]. rewrite leaves_kids.
        assert (K : forall ch i j, Forall (fun a => forall p q s, asub a q = Some s ->
                      exists A B L1 L2, skel el p a = A ++ skel el (p ++ q) s ++ B /\ leaves p (bare a) = L1 ++ leaves (p ++ q) (bare s) ++ L2 /\
                      shown_words A = map text L1 /\ shown_words B = map text L2) ch -> nth_error ch j = Some c ->
                    exists A B L1 L2, skels el p i ch = A ++ skel el (p ++ (i + j) :: q) s ++ B /\
                      leaves_from p i (map bare ch) = L1 ++ leaves (p ++ (i + j) :: q) (bare s) ++ L2 /\
                      shown_words A = map text L1 /\ shown_words B = map text L2).
        { clear IH N. intros ch0. induction ch0 as [|d l IHl]; intros i k F N; [destruct k; discriminate N|].
          destruct k as [|k].
          - inversion N; subst d. destruct (Forall_inv F (p ++ [i]) q s H) as (A & B & L1 & L2 & E1 & E2 & E3 & E4).
            rewrite <- app_assoc in E1, E2. cbn [app] in E1, E2. rewrite Nat.add_0_r.
            exists A, (B ++ skels el p (S i) l), L1, (L2 ++ leaves_from p (S i) (map bare l)).
            cbn [skels map leaves_from]. rewrite E1, E2, <- !app_assoc. repeat split; auto.
            rewrite shown_app, map_app, E4. f_equal. clear. revert i. induction l as [|c l IH]; intro i; [reflexivity|].
            cbn [skels map leaves_from]. rewrite shown_app, map_app, skel_words, IH. reflexivity.
          - destruct (IHl (S i) k (Forall_inv_tail F) N) as (A & B & L1 & L2 & E1 & E2 & E3 & E4).
            exists (skel el (p ++ [i]) d ++ A), B, (leaves (p ++ [i]) (bare d) ++ L1), L2.
            replace (i + S k) with (S i + k) by lia. cbn [skels map leaves_from]. rewrite E1, E2, <- !app_assoc. repeat split; auto.
            rewrite shown_app, map_app, skel_words, E3. reflexivity. }
        destruct (K ch 0 j IH N) as (A & B & L1 & L2 & E1 & E2 & E3 & E4). cbn [Nat.add] in E1, E2.
        exists (Open b n :: A), (B ++ [Close b n]), L1, L2. rewrite E1, E2. cbn [app]. rewrite <- !app_assoc. repeat split; auto.
        rewrite shown_app, E4. cbn [shown_words flat_map]. apply app_nil_r.
  Qed.
End SKEL.

(* ---------- numbers ---------- *)

Lemma bare_leaf rb p n x : bare (fst (add_bracketing rb p n (Leaf x))) = Leaf x.
Proof. cbn [add_bracketing]. destruct (dat x); reflexivity. Qed.

Fixpoint add_kids (rb : path -> bool) (p : path) (i : nat) (l : list tree) (seq : nat) : list atree * nat :=
  match l with
  | [] => ([], seq)
  | c :: l =>
      let '(c, seq) := add_bracketing rb (p ++ [i]) seq c in
      let '(l, seq) := add_kids rb p (S i) l seq in
      (c :: l, seq)
  end.
Lemma add_nt rb p n ty ch : add_bracketing rb p n (NT ty ch) =
  let b := brackets_of (rb p) ty ch in
  let '(ch, n') := add_kids rb p 0 ch (if is_none b then n else S n) in
  (ANT ty b (if is_none b then 0 else S n) ch, n').
Proof.
  cbn [add_bracketing]. cbn zeta.
  assert (K : forall i l s, (fix go (i : nat) (l : list tree) (seq : nat) : list atree * nat :=
           match l with
           | [] => ([], seq)
           | c :: l =>
               let '(c, seq) := add_bracketing rb (p ++ [i]) seq c in
               let '(l, seq) := go (S i) l seq in
               (c :: l, seq)
           end) i l s = add_kids rb p i l s).
  { intros i l. revert i. induction l as [|c l IH]; intros i s; cbn [add_kids]; [reflexivity|].
    destruct (add_bracketing rb (p ++ [i]) s c). rewrite IH. reflexivity. }
  rewrite K. reflexivity.
Qed.

Lemma seq_join a m n : a <= m -> m <= n -> seq (S a) (m - a) ++ seq (S m) (n - m) = seq (S a) (n - a).
Proof.
  intros H1 H2. replace (n - a) with ((m - a) + (n - m)) by lia. rewrite seq_app. f_equal. f_equal. lia.
Qed.

Lemma numbers el t rb : forall p s a n, add_bracketing rb p s t = (a, n) ->
  bare a = t /\ s <= n /\ forall q, opened (skel el q a) = seq (S s) (n - s).
Proof.
  induction t as [x|ty ch IH] using tree_induct; intros p s a n H.
  - cbn [add_bracketing] in H. destruct (dat x) eqn:D; inversion H; subst; (split; [reflexivity|split; [lia|intro q]]);
      cbn [skel]; rewrite D; try (rewrite Nat.sub_diag; reflexivity). rewrite Nat.sub_succ_l, Nat.sub_diag by lia. reflexivity.
  - rewrite add_nt in H. cbn zeta in H. set (b := brackets_of (rb p) ty ch) in *.
    assert (K : forall l i s a n, Forall (fun t => forall p s a n, add_bracketing rb p s t = (a, n) ->
                  bare a = t /\ s <= n /\ forall q, opened (skel el q a) = seq (S s) (n - s)) l ->
                add_kids rb p i l s = (a, n) ->
                map bare a = l /\ s <= n /\ forall q j, opened (skels el q j a) = seq (S s) (n - s)).
    { clear. induction l as [|c l IHl]; intros i s a n F H; cbn [add_kids] in H.
      - inversion H; subst. split; [reflexivity|split; [lia|intros q j]]. rewrite Nat.sub_diag. reflexivity.
      - destruct (add_bracketing rb (p ++ [i]) s c) as [c' s1] eqn:E1. destruct (add_kids rb p (S i) l s1) as [l' s2] eqn:E2.
        inversion H; subst. destruct (Forall_inv F _ _ _ _ E1) as (B1 & S1 & O1).
        destruct (IHl _ _ _ _ (Forall_inv_tail F) E2) as (B2 & S2 & O2).
        split; [cbn [map]; rewrite B1, B2; reflexivity|split; [lia|intros q j]]. cbn [skels].
        rewrite opened_app, O1, O2. apply seq_join; assumption. }
    destruct (add_kids rb p 0 ch _) as [ch' n'] eqn:E. inversion H; subst.
    destruct (K _ _ _ _ _ IH E) as (B1 & S1 & O1). split; [cbn [bare]; rewrite B1; reflexivity|].
    split; [destruct (is_none b); lia|]. intro q. rewrite skel_nt. cbn [opened flat_map].
    fold (opened (skels el q 0 ch' ++ [Close b (if is_none b then 0 else S s)])). rewrite opened_app, O1. cbn [opened flat_map].
    rewrite app_nil_r. destruct b; cbn [is_none] in *; try reflexivity; cbn [app];
      replace (n - s) with (S (n - S s)) by lia; reflexivity.
Qed.

(* every number belongs to a bracket that is shown, and no bracket is without one *)
Lemma numbered rb t : forall p s q b n ch ty, asub (fst (add_bracketing rb p s t)) q = Some (ANT ty b n ch) ->
  b = BR_NONE /\ n = 0 \/ b <> BR_NONE /\ n <> 0.
Proof.
  induction t as [x|ty0 ch0 IH] using tree_induct; intros p s q b n ch ty H.
  - cbn [add_bracketing] in H. destruct (dat x); destruct q; discriminate H.
  - rewrite add_nt in H. cbn zeta in H. set (b0 := brackets_of (rb p) ty0 ch0) in *.
    destruct (add_kids rb p 0 ch0 _) as [ch' n'] eqn:E. cbn [fst] in H. destruct q as [|i q].
    + inversion H; subst. destruct b0; cbn [is_none]; auto; right; split; discriminate.
    + cbn [asub] in H. destruct (nth_error ch' i) as [c|] eqn:N; [|discriminate H].
      assert (K : forall l i s a n k c, add_kids rb p i l s = (a, n) -> nth_error a k = Some c ->
                  exists d s', nth_error l k = Some d /\ c = fst (add_bracketing rb (p ++ [i + k]) s' d)).
      { clear. induction l as [|d l IHl]; intros i s a n k c H N; cbn [add_kids] in H.
        - inversion H; subst. destruct k; discriminate N.
        - destruct (add_bracketing rb (p ++ [i]) s d) as [c' s1] eqn:E1. destruct (add_kids rb p (S i) l s1) as [l' s2] eqn:E2.
          inversion H; subst. destruct k as [|k].
          + inversion N; subst. exists d, s. rewrite Nat.add_0_r, E1. auto.
          + destruct (IHl _ _ _ _ _ _ E2 N) as (d' & s' & N' & ->). exists d', s'. replace (i + S k) with (S i + k) by lia. auto. }
      destruct (K _ _ _ _ _ _ _ E N) as (d & s' & N' & ->).
      rewrite Forall_forall in IH. exact (IH d (nth_error_In _ _ N') _ _ _ _ _ _ _ H).
Qed.

(* ---------- labels ---------- *)

Lemma labelled_app a b : labelled a -> labelled b -> labelled (a ++ b).
Proof.
  induction 1 as [|c l Hc Hl IH|l l' H1 H2 H3 IH]; intro H; cbn [app]; [exact H|constructor; auto|].
  rewrite <- app_assoc. cbn [app]. apply lb_tags; auto.
Qed.
Lemma labelled_plain l : forallb plain_call l = true -> labelled l.
Proof. induction l as [|c l IH]; cbn [forallb]; intro H; [constructor|]. apply andb_prop in H. constructor; tauto. Qed.
Lemma labels_app a b : labels a -> labels b -> labels (a ++ b).
Proof.
  induction 1 as [|l l' H1 H2 IH]; intro H; cbn [app]; [exact H|]. rewrite <- app_assoc. constructor; auto.
Qed.
Definition tagwise (m : mode) (cs : list call) : Prop :=
  match m with SHOW_TAG_TRANS => forallb label_call cs = true | _ => labelled cs end.
Lemma tagwise_app m a b : tagwise m a -> tagwise m b -> tagwise m (a ++ b).
Proof.
  destruct m; cbn [tagwise]; try apply labelled_app. intros H1 H2. rewrite forallb_app, H1, H2. reflexivity.
Qed.
Lemma tagwise_nil m : tagwise m [].
Proof. destruct m; constructor. Qed.
Lemma tagwise_word m t : tagwise m (word m t).
Proof. destruct m; try reflexivity; apply labelled_plain; reflexivity. Qed.
Lemma tagwise_say m e k : m <> SHOW_TAG_TRANS -> tagwise m (say e ++ [Eols k]).
Proof.
  intro N. assert (labelled (say e ++ [Eols k])).
  { apply labelled_plain. unfold say. destruct (String.eqb e ""); reflexivity. }
  destruct m; try exact H. contradiction.
Qed.

Section LABELS.
  Variable translate : string -> option string.
  Variable adv_translate : string -> Z -> tctx -> outcome string.
  Variable translate_unknown : string -> Z -> tctx -> outcome (option string).
  Variable P : props.
  Variable top : atree.
  Notation outi := (output_internal translate adv_translate translate_unknown P top).
  Notation outs := (outs translate adv_translate translate_unknown P top).
  Notation jump := (jump translate adv_translate translate_unknown P top).
  Definition ordered (f : nat) (a : atree) : Prop := forall m p cs, outi f m p a = Ok cs -> tagwise m cs.

  Lemma leaf_labels m p x b n cs : output_leaf translate adv_translate translate_unknown P top m p x b n = Ok cs -> tagwise m cs.
  Proof.
    assert (T : forall e k, forallb label_call (say_tag e ++ [Eols k]) = true).
    { intros e k. unfold say_tag. destruct (String.eqb e ""); reflexivity. }
    unfold output_leaf. intro H. oinv H. destruct a as [l e].
    assert (G : forall s d, tagwise m ((if lojban m then [Loj s] else []) ++
            (if english m then say e ++ [Eols (p_eols P p)]
             else match m with
                  | SHOW_LOJBAN_AND_INDICATORS =>
                      if match d with N_CMAVO s _ _ => bystander s | _ => false end
                      then say e ++ [Eols (p_eols P p)] else []
                  | SHOW_TAG_TRANS => say_tag e ++ [Eols (p_eols P p)]
                  | _ => []
                  end))).
    { intros s d. assert (L1 : labelled [Loj s]) by (apply labelled_plain; reflexivity).
      destruct m; cbn [lojban english].
      - apply (tagwise_nil SHOW_NONE).
      - exact L1.
      - apply (tagwise_say SHOW_ENGLISH). discriminate.
      - apply T.
      - apply (tagwise_app SHOW_LOJBAN_AND_INDICATORS [Loj s]); [exact L1|].
        destruct (match d with N_CMAVO s _ _ => _ | _ => _ end); [apply tagwise_say; discriminate|constructor].
      - apply (tagwise_app SHOW_BOTH [Loj s]); [exact L1|]. apply tagwise_say. discriminate. }
    destruct (dat x) eqn:D; try (oinv H; inversion H; apply (G _ (dat x)); fail);
      try (oinv H; inversion H; specialize (G a (dat x)); rewrite D in G; exact G).
    inversion H; subst. assert (L1 : labelled [Open b n; Loj l]) by (apply labelled_plain; reflexivity).
    assert (L2 : labelled [Close b n]) by (apply labelled_plain; reflexivity).
    destruct m; cbn [lojban english].
    - apply (tagwise_nil SHOW_NONE).
    - exact (labelled_app _ _ L1 L2).
    - rewrite app_nil_r. apply (tagwise_say SHOW_ENGLISH). discriminate.
    - rewrite app_nil_r. apply T.
    - exact (labelled_app _ _ L1 L2).
    - apply (tagwise_app SHOW_BOTH [_; _]); [exact L1|]. apply tagwise_app; [apply tagwise_say; discriminate|exact L2].
  Qed.

  Lemma outs_labels f m p ch i cs : Forall (ordered f) ch -> in_turn (outs f m p i ch) = Ok cs -> tagwise m cs.
  Proof.
    intros F. revert i cs. induction F as [|c l Hc Hl IH]; cbn [OutProofs.outs in_turn]; intros i cs H.
    - inversion H. apply tagwise_nil.
    - oinv H. oinv H. inversion H; subst. apply tagwise_app; [exact (Hc _ _ _ E)|exact (IH _ _ E0)].
  Qed.
  (* labels of the children in another mode that is not that of tags *)
  Lemma outs_labels' f m m' p ch i cs : Forall (ordered f) ch -> m <> SHOW_TAG_TRANS -> m' <> SHOW_TAG_TRANS ->
    in_turn (outs f m' p i ch) = Ok cs -> tagwise m cs.
  Proof.
    intros F N N' H. apply (outs_labels _ _ _ _ _ _ F) in H. destruct m; try contradiction; destruct m'; try contradiction; exact H.
  Qed.

  Variable f : nat.
  Hypothesis jump_ok : forall m q cs, jump f m q = Ok cs -> tagwise m cs.

  Lemma tag_labels t cs : output_tag adv_translate top (jump f) t = Ok cs -> labels cs /\ cs <> [].
  Proof.
    assert (G : forall l, forallb label_call l = true -> labels (StartTag :: l) /\ StartTag :: l <> []).
    { intros l H. split; [|discriminate]. rewrite <- (app_nil_r l). constructor; [exact H|constructor]. }
    destruct t; cbn [output_tag]; intro H; repeat oinv H; try (inversion H; apply G; reflexivity).
    - inversion H; subst. cbn [app]. apply G. apply jump_ok in E. cbn [tagwise] in E.
      cbn [forallb label_call]. rewrite forallb_app, E. reflexivity.
    - destruct a as [pl k]. oinv H. inversion H. apply G. reflexivity.
  Qed.
  Lemma tags_labels l cs : in_turn (map (output_tag adv_translate top (jump f)) l) = Ok cs -> labels cs /\ (l <> [] -> cs <> []).
  Proof.
    revert cs. induction l as [|t l IH]; cbn [map in_turn]; intros cs H; [inversion H; split; [constructor|tauto]|].
    oinv H. oinv H. inversion H; subst. destruct (tag_labels _ _ E) as [L1 N1]. destruct (IH _ E0) as [L2 _].
    split; [apply labels_app; assumption|]. intros _ C. apply app_eq_nil in C. tauto.
  Qed.

  Lemma word_labels m p ch w cs : Forall (ordered f) ch -> with_word (fun m => outs f m p 0 ch) m w = Ok cs -> tagwise m cs.
  Proof.
    intros F H. unfold with_word in H. oinv H. oinv H. inversion H; subst.
    assert (A : tagwise m a).
    { destruct ch as [|c l]; [inversion E; apply tagwise_nil|]. rewrite firstn_outs in E.
      apply outs_labels in E; [exact E|]. constructor; [exact (Forall_inv F)|constructor]. }
    assert (B : tagwise m a0).
    { destruct ch as [|c l]; [inversion E0; apply tagwise_nil|]. rewrite skipn_outs in E0.
      apply outs_labels in E0; [exact E0|]. exact (Forall_inv_tail F). }
    apply tagwise_app; [exact A|]. apply tagwise_app; [|exact B].
    destruct m; cbn [english]; try apply tagwise_nil; apply labelled_plain; reflexivity.
  Qed.

  Lemma inside_labels m p ty b n ch cs : Forall (ordered f) ch ->
    output_inside translate adv_translate P top (jump f) (fun m => outs f m p 0 ch) m p ty b n ch = Ok cs -> tagwise m cs.
  Proof.
    intros F H. pose proof (fun i cs => outs_labels f m p ch i cs F) as K. pose proof (fun w cs => word_labels m p ch w cs F) as W.
    assert (LAI : forall cs, (if lojban m then in_turn (outs f SHOW_LOJBAN_AND_INDICATORS p 0 ch) else Ok []) = Ok cs -> tagwise m cs).
    { intros c X. destruct (lojban m) eqn:L; [|inversion X; apply tagwise_nil].
      apply (outs_labels' _ m _ _ _ _ _ F) in X; [exact X|destruct m; discriminate|discriminate]. }
    unfold output_inside in H.
    destruct (String.eqb ty "SELBRI_3" && _); [exact (W _ _ H)|].
    destruct (String.eqb ty "TERM").
    { unfold output_term in H. oinv H. oinv H. inversion H; subst. apply tagwise_app; [|exact (K _ _ E0)].
      destruct (lojban m) eqn:L; [|inversion E; apply tagwise_nil].
      destruct (p_term_tags P p) as [|t l]; [inversion E; apply tagwise_nil|]. oinv E. inversion E; subst.
      destruct (tags_labels _ _ E1) as [L1 N1]. assert (labelled (StartTags :: a1 ++ [EndTags])).
      { apply lb_tags; [exact L1|apply N1; discriminate|constructor]. }
      destruct m; try discriminate L; exact H0. }
    destruct (String.eqb ty "NO_CU_SENTENCE").
    { destruct (Nat.eqb _ _); [exact (W _ _ H)|exact (K _ _ H)]. }
    destruct (String.eqb ty "OBSERVATIVE_SENTENCE").
    { destruct ch as [|c l]; [discriminate H|]. rewrite firstn_outs in H. apply outs_labels in H; [exact H|].
      constructor; [exact (Forall_inv F)|constructor]. }
    destruct (String.eqb ty "TIME_OFFSET").
    { unfold output_simple_time_offset in H. oinv H. oinv H. inversion H; subst. apply tagwise_app; [exact (LAI _ E0)|].
      destruct m; cbn [english]; try apply tagwise_nil; try (apply tagwise_say; discriminate).
      unfold say_tag. destruct (String.eqb a ""); reflexivity. }
    destruct (one_of ty ["SPACE_INT_PROP"; _; _]).
    { unfold output_clustered in H. oinv H. destruct (match translate _ with Some t => _ | None => _ end).
      - oinv H. oinv H. inversion H; subst. apply tagwise_app; [exact (LAI _ E1)|].
        destruct m; cbn [english]; try apply tagwise_nil; apply labelled_plain; reflexivity.
      - exact (K _ _ H). }
    destruct (String.eqb ty "SUMTI_TAIL").
    { unfold output_sumti_tail in H. destruct ch as [|[x b' n'|ty' b' n' cc] l]; [discriminate H|discriminate H|].
      destruct (is_ant "SUMTI_6" _); [|exact (K _ _ H)].
      rewrite skipn_outs, !firstn_outs in H. oinv H. oinv H. oinv H. inversion H; subst.
      set (c := ANT ty' b' n' cc) in *.
      assert (F1 : Forall (ordered f) [c]) by (constructor; [exact (Forall_inv F)|constructor]).
      apply tagwise_app; [|apply tagwise_app; [exact (outs_labels _ _ _ _ _ _ (Forall_inv_tail F) E0)|]].
      - destruct (lojban m) eqn:L; [|inversion E; apply tagwise_nil]. oinv E. inversion E; subst.
        assert (N : m <> SHOW_TAG_TRANS) by (destruct m; discriminate).
        apply (outs_labels' _ m _ _ _ _ _ F1 N) in E2; [|discriminate]. apply tagwise_app; [exact E2|].
        destruct m; try contradiction; apply labelled_plain; reflexivity.
      - destruct (english m) eqn:L; [|inversion E1; apply tagwise_nil]. oinv E1. inversion E1; subst.
        assert (N : m <> SHOW_TAG_TRANS) by (destruct m; discriminate).
        apply (outs_labels' _ m _ _ _ _ _ F1 N) in E2; [|discriminate]. apply (tagwise_app m [Eng "[of]"]); [|exact E2].
        destruct m; try contradiction; apply labelled_plain; reflexivity. }
    oinv H. destruct a; [exact (W _ _ H)|].
    destruct (one_of ty ["JEK"; _; _; _; _; _; _; _]); [|exact (K _ _ H)].
    unfold output_connective in H. oinv H. oinv H. inversion H; subst. apply tagwise_app; [exact (LAI _ E0)|].
    destruct (english m || _) eqn:M; [|inversion E1; apply tagwise_nil].
    assert (J : forall js r, jump f (match m with SHOW_TAG_TRANS => SHOW_TAG_TRANS | _ => SHOW_ENGLISH end) js = Ok r -> tagwise m r).
    { intros js r X. apply jump_ok in X. destruct m; exact X. }
    assert (N : forall (k : bool) w, tagwise m (if k then word m w else [])).
    { intros [] w; [apply tagwise_word|apply tagwise_nil]. }
    destruct (p_connective P p) as [[pos pat|pos js n1 n2]|]; [| |discriminate E1].
    - oinv E1. inversion E1. destruct (translate _); [apply tagwise_word|apply tagwise_nil].
    - destruct pos; try discriminate E1.
      + inversion E1. apply tagwise_nil.
      + oinv E1. inversion E1. apply tagwise_app; [apply N|exact (J _ _ E2)].
      + inversion E1. apply N.
      + oinv E1. inversion E1. apply tagwise_app; [exact (J _ _ E2)|apply N].
  Qed.
End LABELS.

Theorem out_labels translate adv unk P top f : forall a, ordered translate adv unk P top f a.
Proof.
  induction f as [|f IHf].
  all: intro a; induction a as [x b n|ty b n ch IH] using atree_induct; intros m p cs H;
    [rewrite outi_leaf in H; exact (leaf_labels _ _ _ _ _ _ _ _ _ _ _ H)|rewrite outi_nt in H].
  all: unfold output_node in H; oinv H; apply inside_labels in E; [| |exact IH].
  2: intros m' q cs' J; discriminate J.
  3: { intros m' q cs' J. unfold jump in J. destruct (asub top q) as [c|]; [|discriminate J]. exact (IHf _ _ _ _ J). }
  all: destruct (lojban m) eqn:L; inversion H; subst; [|exact E].
  all: assert (L1 : forall c, plain_call c = true -> tagwise m [c])
         by (intros c C; destruct m; try discriminate L; apply labelled_plain; cbn [forallb]; rewrite C; reflexivity).
  all: apply (tagwise_app m [Open b n]); [apply L1; reflexivity|]; apply tagwise_app; [exact E|apply L1; reflexivity].
Qed.
