From Coq Require Import String Ascii List NArith Bool Arith Lia.
From Verif Require Import Base TokData CmavoData TokModel ErasureSpec ErasureProofs Lex2Spec TreeModel TreeOutModel TreeOutSpec ConnectProofs TreeOutProofs.
Import ListNotations.
Open Scope string_scope.
Open Scope list_scope.

Section PRINT.
  Variable elidable : node -> bool.
  Variable eols : node -> nat.
  Variable glossing : bool.
  Variable translate translate_unknown : string -> option string.
  Notation pb := (print_bracketed elidable eols glossing translate translate_unknown).
  Notation pl := (print_leaf elidable glossing translate translate_unknown).

  Fixpoint print_list (depth : nat) (prev : option tree) (ch : list tree) (s : bstate) (pend : nat) : list piece * bstate * nat :=
    match ch with
    | [] => ([], s, pend)
    | c :: ch =>
        let '(a, s, pend) := pb c (S depth) s pend (child_conv prev) in
        let '(b, s, pend) := print_list depth (Some c) ch s pend in
        (a ++ b, s, pend)
    end.
  Lemma pb_nt ty ch depth s pend conv : pb (NT ty ch) depth s pend conv =
    let '(o1, s) := clear_eols pend s in
    let '(o3, _, pend) := print_list depth None ch B_OPEN 0 in
    (o1 ++ space_b4 s ++ [Open depth] ++ o3 ++ [Close depth], B_CLOSE, pend).
  Proof.
    assert (E : forall ch prev s pend, (fix go (prev : option tree) (ch : list tree) (s : bstate) (pend : nat) : list piece * bstate * nat :=
             match ch with
             | [] => ([], s, pend)
             | c :: ch =>
                 let '(a, s, pend) := pb c (S depth) s pend (child_conv prev) in
                 let '(b, s, pend) := go (Some c) ch s pend in
                 (a ++ b, s, pend)
             end) prev ch s pend = print_list depth prev ch s pend).
    { clear. induction ch as [|c ch IH]; intros; [reflexivity |]. cbn [print_list].
      destruct (pb c (S depth) s pend (child_conv prev)) as ((a & s') & p'). rewrite IH. reflexivity. }
    cbn [print_bracketed]. rewrite E. reflexivity.
  Qed.
  Lemma pb_leaf x depth s pend conv : pb (Leaf x) depth s pend conv =
    let '(o1, s) := clear_eols pend s in let '(o2, s) := pl x depth s conv in (o1 ++ o2, s, eols x).
  Proof. reflexivity. Qed.

  (* ---- visible output ---- *)
  Lemma vis_newlines n : filter visible (repeat Newline n) = [].
  Proof. induction n; [reflexivity | exact IHn]. Qed.
  Lemma vis_eols pend s : filter visible (fst (clear_eols pend s)) = [].
  Proof. destruct pend; [reflexivity | apply (vis_newlines (S pend))]. Qed.
  Lemma vis_space s : filter visible (space_b4 s) = [].
  Proof. destruct s; reflexivity. Qed.

  Lemma app_str_nil_r s : (s ++ "")%string = s.
  Proof. induction s; cbn; congruence. Qed.
  Lemma code_is_eq code t : code_is code t = true <-> cmavo_selmao code = Some t.
  Proof.
    unfold code_is. destruct (cmavo_selmao code) as [s|]; [| split; discriminate].
    rewrite tok_eqb_eq. split; congruence.
  Qed.

  Lemma cmavo_text_written e code g k :
    e = true \/ (cmavo_selmao code = Some T_UI /\ k <> Some CC_PEINAI) \/
    (cmavo_selmao code = Some T_CAI /\ k = None) \/ (g = false /\ k = None) ->
    cmavo_text e code g k =
    (if e then make_uppercase (cmavo_word code) else spaced (cmavo_word code :: nai_words g ++ cai_words k)).
  Proof.
    intro H. unfold cmavo_text. destruct e; [reflexivity |]. destruct H as [H|[(H & N)|[(H & N)|(H & N)]]].
    - discriminate.
    - rewrite (proj2 (code_is_eq code T_UI) H). generalize (cmavo_word code) as w. intro w.
      destruct g, k as [[]|]; try congruence; cbn [nai_words cai_words cai_suffix app spaced String.concat];
        rewrite ?app_str_nil_r; reflexivity.
    - rewrite (proj2 (code_is_eq code T_CAI) H). destruct (code_is code T_UI) eqn:E.
      { apply code_is_eq in E. congruence. }
      subst k. generalize (cmavo_word code) as w. intro w.
      destruct g; cbn [nai_words cai_words cai_suffix app spaced String.concat]; rewrite ?app_str_nil_r; reflexivity.
    - subst. generalize (cmavo_word code) as w. intro w. cbn [cai_suffix].
      destruct (code_is code T_UI), (code_is code T_CAI); cbn [nai_words cai_words app spaced String.concat]; apply app_str_nil_r.
  Qed.

  Lemma vis_gloss_cmavo a b c : filter visible (gloss_cmavo glossing translate a b c) = [].
  Proof.
    unfold gloss_cmavo. destruct glossing; [| reflexivity]. destruct (tok_eqb a T_BAI).
    - match goal with |- context [match translate ?x with _ => _ end] => destruct (translate x) end; reflexivity.
    - destruct (translate (cmavo_word b)); reflexivity.
  Qed.
  Lemma vis_gloss_plain w : filter visible (gloss_plain translate translate_unknown w) = [].
  Proof. unfold gloss_plain. destruct (translate w); [reflexivity |]. destruct (translate_unknown w); reflexivity. Qed.
  Lemma vis_gloss_brivla w c : filter visible (gloss_brivla glossing translate translate_unknown w c) = [].
  Proof.
    unfold gloss_brivla. destruct glossing; [| reflexivity]. pose proof (vis_gloss_plain w).
    destruct c; [assumption | ..];
      match goal with |- context [match translate ?x with _ => _ end] => destruct (translate x) end; auto.
  Qed.

  Lemma vis_leaf x depth s conv : faithful elidable x -> filter visible (fst (pl x depth s conv)) = bracketed elidable depth (Leaf x).
  Proof.
    intro F. unfold faithful in F. unfold print_leaf. cbn [bracketed]. unfold TreeOutSpec.written.
    destruct (dat x) as [t|w|sm code f|form term text|t|t|ch sp sz|w|w ty|w|n] eqn:D; cbn [fst];
      rewrite ?filter_app, ?vis_space; cbn [app filter visible];
      rewrite ?vis_gloss_cmavo, ?vis_gloss_brivla; try reflexivity.
    - rewrite cmavo_text_written by exact F. reflexivity.
    - subst form. reflexivity.
  Qed.

  Lemma vis_tree t : forall depth s pend conv, Forall (faithful elidable) (leaves t) ->
    filter visible (fst (fst (pb t depth s pend conv))) = bracketed elidable depth t.
  Proof.
    induction t as [x|ty ch IH] using tree_induction; intros depth s pend conv F.
    - rewrite pb_leaf. pose proof (vis_eols pend s) as V1. destruct (clear_eols pend s) as (o1 & s1). cbn [fst] in V1.
      inversion F as [|? ? F1 _]; subst. pose proof (vis_leaf x depth s1 conv F1) as V2.
      destruct (pl x depth s1 conv) as (o2 & s2). cbn [fst] in *. rewrite filter_app, V1, V2. reflexivity.
    - rewrite pb_nt. pose proof (vis_eols pend s) as V1. destruct (clear_eols pend s) as (o1 & s1). cbn [fst] in V1.
      assert (L : forall prev s pend, filter visible (fst (fst (print_list depth prev ch s pend))) = flat_map (bracketed elidable (S depth)) ch).
      { cbn [leaves] in F. clear -IH F. induction IH as [|c ch C _ IH]; intros prev s pend; [reflexivity |].
        cbn [print_list flat_map] in *. apply Forall_app in F. destruct F as (F1 & F2).
        specialize (C (S depth) s pend (child_conv prev) F1).
        destruct (pb c (S depth) s pend (child_conv prev)) as ((a & s') & p').
        specialize (IH F2 (Some c) s' p'). destruct (print_list depth (Some c) ch s' p') as ((b & s2) & p2).
        cbn [fst] in *. rewrite filter_app, C, IH. reflexivity. }
      specialize (L None B_OPEN 0). destruct (print_list depth None ch B_OPEN 0) as ((o3 & s3) & p3). cbn [fst] in *.
      rewrite !filter_app, V1, vis_space, L. reflexivity.
  Qed.
  Lemma vis_text t : Forall (faithful elidable) (leaves t) ->
    filter visible (print_bracketed_text elidable eols glossing translate translate_unknown t) = bracketed elidable 0 t.
  Proof.
    intro F. unfold print_bracketed_text. pose proof (vis_tree t 0 B_OPEN 0 CV_NORMAL F) as V.
    destruct (pb t 0 B_OPEN 0 CV_NORMAL) as ((o & s) & p). cbn [fst] in V. rewrite filter_app, V. cbn. apply app_nil_r.
  Qed.

  (* ---- spacing ---- *)
  Definition wordy (p : piece) : bool := match p with Text _ | Gloss _ => true | _ => false end.
  Definition is_text (p : piece) : bool := match p with Text _ => true | _ => false end.
  Fixpoint adj (w : bool) (l : list piece) : Prop :=
    match l with [] => True | p :: l => (w && is_text p = false) /\ adj (wordy p) l end.
  Fixpoint lastw (w : bool) (l : list piece) : bool := match l with [] => w | p :: l => lastw (wordy p) l end.
  Lemma adj_app a : forall w b, adj w a -> adj (lastw w a) b -> adj w (a ++ b).
  Proof. induction a as [|p a IH]; cbn; intros w b A B; [exact B |]. destruct A; auto. Qed.
  Lemma lastw_app a : forall w b, lastw w (a ++ b) = lastw (lastw w a) b.
  Proof. induction a; cbn; auto. Qed.
  Definition inv (w : bool) (s : bstate) : Prop := w = true -> s = B_TEXT.

  Lemma eols_inv w pend s : inv w s -> adj w (fst (clear_eols pend s)) /\ inv (lastw w (fst (clear_eols pend s))) (snd (clear_eols pend s)).
  Proof.
    intro I. destruct pend as [|n]; cbn [clear_eols fst snd]; [split; [exact Logic.I | exact I] |].
    assert (G : forall n w, adj w (repeat Newline n)).
    { induction n0; intro w0; cbn; [exact Logic.I |]. split; [apply andb_false_r | auto]. }
    assert (L : forall n w, lastw w (repeat Newline (S n)) = false).
    { induction n0; intro w0; [reflexivity |]. exact (IHn0 false). }
    split; [apply G |]. rewrite L. intro; discriminate.
  Qed.
  Lemma space_inv w s : inv w s -> adj w (space_b4 s) /\ lastw w (space_b4 s) = false.
  Proof. intro I. destruct s; cbn; rewrite ?andb_false_r; auto. destruct w; [discriminate (I eq_refl) | auto]. Qed.

  Lemma gloss_adj_cmavo a b c : adj true (gloss_cmavo glossing translate a b c).
  Proof.
    unfold gloss_cmavo. destruct glossing; [| exact I]. destruct (tok_eqb a T_BAI).
    - match goal with |- context [match translate ?x with _ => _ end] => destruct (translate x) end; cbn; auto.
    - destruct (translate (cmavo_word b)); cbn; auto.
  Qed.
  Lemma gloss_adj_plain w : adj true (gloss_plain translate translate_unknown w).
  Proof. unfold gloss_plain. destruct (translate w); [cbn; auto |]. destruct (translate_unknown w); cbn; auto. Qed.
  Lemma gloss_adj_brivla w c : adj true (gloss_brivla glossing translate translate_unknown w c).
  Proof.
    unfold gloss_brivla. destruct glossing; [| exact I]. pose proof (gloss_adj_plain w).
    destruct c; [assumption | ..];
      match goal with |- context [match translate ?x with _ => _ end] => destruct (translate x) end; cbn; auto.
  Qed.

  Lemma leaf_inv x depth s conv w : inv w s ->
    adj w (fst (pl x depth s conv)) /\ inv (lastw w (fst (pl x depth s conv))) (snd (pl x depth s conv)).
  Proof.
    intro I. destruct (space_inv w s I) as (S1 & S2). unfold print_leaf.
    assert (T : forall t rest, adj true rest -> adj w (space_b4 s ++ [Text t] ++ rest) /\ inv (lastw w (space_b4 s ++ [Text t] ++ rest)) B_TEXT).
    { intros t rest R. split; [| intro; reflexivity]. apply adj_app; [exact S1 |]. rewrite S2. cbn. auto. }
    destruct (dat x) as [t|wd|sm code f|form term text|t|t|ch sp sz|wd|wd ty|wd|n] eqn:D; cbn [fst snd].
    - split; [exact Logic.I | exact I].
    - split; [exact Logic.I | exact I].
    - apply T, gloss_adj_cmavo.
    - apply (T _ []). exact Logic.I.
    - apply (T _ []). exact Logic.I.
    - split; [apply adj_app; [exact S1 |]; rewrite S2; cbn; auto |]. rewrite lastw_app. cbn. intro; discriminate.
    - split; [cbn; rewrite andb_false_r; auto |]. cbn. intro; discriminate.
    - apply (T _ []). exact Logic.I.
    - apply T, gloss_adj_brivla.
    - apply (T _ []). exact Logic.I.
    - split; [exact Logic.I | exact I].
  Qed.

  Lemma tree_inv t : forall depth s pend conv w, inv w s ->
    let '(o, s', _) := pb t depth s pend conv in adj w o /\ inv (lastw w o) s'.
  Proof.
    induction t as [x|ty ch IH] using tree_induction; intros depth s pend conv w I.
    - rewrite pb_leaf. destruct (eols_inv w pend s I) as (A1 & I1). destruct (clear_eols pend s) as (o1 & s1). cbn [fst snd] in *.
      destruct (leaf_inv x depth s1 conv _ I1) as (A2 & I2). destruct (pl x depth s1 conv) as (o2 & s2). cbn [fst snd] in *.
      split; [apply adj_app; assumption |]. rewrite lastw_app. exact I2.
    - rewrite pb_nt. destruct (eols_inv w pend s I) as (A1 & I1). destruct (clear_eols pend s) as (o1 & s1). cbn [fst snd] in *.
      destruct (space_inv _ s1 I1) as (A2 & I2).
      assert (L : forall prev s pend w, inv w s -> let '(o, s', _) := print_list depth prev ch s pend in adj w o /\ inv (lastw w o) s').
      { clear -IH. induction IH as [|c ch C _ IH]; intros prev s pend w I; cbn [print_list]; [split; [exact Logic.I | exact I] |].
        specialize (C (S depth) s pend (child_conv prev) w I).
        destruct (pb c (S depth) s pend (child_conv prev)) as ((a & s') & p'). destruct C as (C1 & C2).
        specialize (IH (Some c) s' p' _ C2). destruct (print_list depth (Some c) ch s' p') as ((b & s2) & p2).
        destruct IH. split; [apply adj_app; assumption |]. rewrite lastw_app. assumption. }
      specialize (L None B_OPEN 0 false). destruct (print_list depth None ch B_OPEN 0) as ((o3 & s3) & p3).
      destruct L as (A3 & I3); [intro; discriminate |].
      split.
      + apply adj_app; [exact A1 |]. apply adj_app; [exact A2 |]. cbn [app adj]. split; [rewrite I2; reflexivity |].
        apply adj_app; [exact A3 |]. cbn. rewrite andb_false_r. auto.
      + rewrite !lastw_app. cbn [lastw wordy]. rewrite ?lastw_app. cbn. intro; discriminate.
  Qed.

  Lemma adj_no a : forall w x y b, adj w (a ++ x :: y :: b) -> wordy x = true -> is_text y = true -> False.
  Proof.
    induction a as [|p a IH]; intros w x y b A X Y; cbn in A.
    - destruct A as (_ & A & _). rewrite X, Y in A. discriminate.
    - destruct A as (_ & A). eauto.
  Qed.
  Lemma text_spacing t a x y b : print_bracketed_text elidable eols glossing translate translate_unknown t = a ++ x :: Text y :: b ->
    match x with Text _ | Gloss _ => False | _ => True end.
  Proof.
    unfold print_bracketed_text. pose proof (tree_inv t 0 B_OPEN 0 CV_NORMAL false) as T.
    destruct (pb t 0 B_OPEN 0 CV_NORMAL) as ((o & s) & p). destruct T as (T & _); [intro; discriminate |].
    intro E. assert (T' : adj false (o ++ [Newline])) by (apply adj_app; [exact T | cbn; rewrite andb_false_r; auto]).
    rewrite E in T'. destruct x; try exact Logic.I; exact (adj_no _ _ _ _ _ T' eq_refl eq_refl).
  Qed.
End PRINT.

(* ---- matching brackets ---- *)

Lemma balanced_app a b : balanced a -> balanced b -> balanced (a ++ b).
Proof.
  intros A B. induction A as [|p l N _ IH|d a b' A1 _ A2 IH]; cbn.
  - exact B.
  - apply bl_flat; assumption.
  - rewrite <- app_assoc. cbn. apply bl_nest; assumption.
Qed.
Lemma balanced_flat l : Forall (fun p => forall d, p <> Open d /\ p <> Close d) l -> balanced l.
Proof. induction 1; [apply bl_nil | apply bl_flat; assumption]. Qed.

Section BAL.
  Variable elidable : node -> bool.
  Variable eols : node -> nat.
  Variable glossing : bool.
  Variable translate translate_unknown : string -> option string.
  Notation pb := (print_bracketed elidable eols glossing translate translate_unknown).
  Notation pl := (print_leaf elidable glossing translate translate_unknown).

  Lemma bal_eols pend s : balanced (fst (clear_eols pend s)).
  Proof.
    destruct pend; [apply bl_nil |]. apply balanced_flat. apply Forall_forall. intros p I.
    apply repeat_spec in I. subst. intro; split; discriminate.
  Qed.
  Lemma bal_space s : balanced (space_b4 s).
  Proof. destruct s; repeat (apply bl_flat; [intro; split; discriminate |]); apply bl_nil. Qed.
  Lemma bal_text t l : balanced l -> balanced (Text t :: l).
  Proof. intro. apply bl_flat; [intro; split; discriminate | assumption]. Qed.
  Lemma bal_gloss_cmavo a b c : balanced (gloss_cmavo glossing translate a b c).
  Proof.
    unfold gloss_cmavo. destruct glossing; [| apply bl_nil]. destruct (tok_eqb a T_BAI);
    match goal with |- context [match translate ?x with _ => _ end] => destruct (translate x) end;
      repeat (apply bl_flat; [intro; split; discriminate |]); apply bl_nil.
  Qed.
  Lemma bal_gloss_plain w : balanced (gloss_plain translate translate_unknown w).
  Proof.
    unfold gloss_plain. destruct (translate w); [| destruct (translate_unknown w)];
      repeat (apply bl_flat; [intro; split; discriminate |]); apply bl_nil.
  Qed.
  Lemma bal_gloss_brivla w c : balanced (gloss_brivla glossing translate translate_unknown w c).
  Proof.
    unfold gloss_brivla. destruct glossing; [| apply bl_nil]. pose proof (bal_gloss_plain w).
    destruct c; [assumption | ..];
      match goal with |- context [match translate ?x with _ => _ end] => destruct (translate x) end;
      try assumption; repeat (apply bl_flat; [intro; split; discriminate |]); apply bl_nil.
  Qed.
  Lemma bal_leaf x depth s conv : balanced (fst (pl x depth s conv)).
  Proof.
    unfold print_leaf. pose proof (bal_space s) as S.
    destruct (dat x); cbn [fst app]; try apply bl_nil; try (apply balanced_app; [exact S |]); try apply bal_text;
      try apply bl_nil; auto using bal_gloss_cmavo, bal_gloss_brivla.
    - eapply (bl_nest (Datatypes.S depth) [_] []); [apply bal_text, bl_nil | apply bl_nil].
    - apply (bl_nest (Datatypes.S depth) [_; _] []); [apply bal_text; apply bl_flat; [intro; split; discriminate | apply bl_nil] | apply bl_nil].
  Qed.
  Lemma bal_tree t : forall depth s pend conv, balanced (fst (fst (pb t depth s pend conv))).
  Proof.
    induction t as [x|ty ch IH] using tree_induction; intros depth s pend conv.
    - rewrite pb_leaf. pose proof (bal_eols pend s) as V1. destruct (clear_eols pend s) as (o1 & s1).
      pose proof (bal_leaf x depth s1 conv) as V2. destruct (pl x depth s1 conv) as (o2 & s2). cbn [fst] in *.
      apply balanced_app; assumption.
    - rewrite pb_nt. pose proof (bal_eols pend s) as V1. destruct (clear_eols pend s) as (o1 & s1). cbn [fst] in V1.
      assert (L : forall prev s pend, balanced (fst (fst (print_list elidable eols glossing translate translate_unknown depth prev ch s pend)))).
      { clear -IH. induction IH as [|c ch C _ IH]; intros prev s pend; [apply bl_nil |].
        cbn [print_list]. specialize (C (S depth) s pend (child_conv prev)).
        destruct (pb c (S depth) s pend (child_conv prev)) as ((a & s') & p').
        specialize (IH (Some c) s' p'). destruct (print_list elidable eols glossing translate translate_unknown depth (Some c) ch s' p') as ((b & s2) & p2).
        cbn [fst] in *. apply balanced_app; assumption. }
      specialize (L None B_OPEN 0).
      destruct (print_list elidable eols glossing translate translate_unknown depth None ch B_OPEN 0) as ((o3 & s3) & p3). cbn [fst] in *.
      apply balanced_app; [exact V1 |]. apply balanced_app; [apply bal_space |]. cbn [app].
      apply (bl_nest depth _ []); [exact L | apply bl_nil].
  Qed.
  Lemma bal_text_all t : balanced (print_bracketed_text elidable eols glossing translate translate_unknown t).
  Proof.
    unfold print_bracketed_text. pose proof (bal_tree t 0 B_OPEN 0 CV_NORMAL) as B.
    destruct (pb t 0 B_OPEN 0 CV_NORMAL) as ((o & s) & p). cbn [fst] in B. apply balanced_app; [exact B |].
    apply bl_flat; [intro; split; discriminate | apply bl_nil].
  Qed.
End BAL.

(* ---------- the indented tree ---------- *)

Section TREE.
  Variable elidable : node -> bool.
  Variable selmao_name : N -> string.

  (* the lines of a forest, last first *)
  Fixpoint rlines (i : nat) (t : sk) : list (nat * string) :=
    match t with SK l ch => (i, l) :: (fix go (ch : list sk) := match ch with [] => [] | c :: ch => go ch ++ rlines (S i) c end) ch end.
  Fixpoint rforest (i : nat) (f : list sk) : list (nat * string) :=
    match f with [] => [] | c :: f => rforest i f ++ rlines i c end.
  Lemma rlines_eq i l ch : rlines i (SK l ch) = (i, l) :: rforest (S i) ch.
  Proof. cbn. f_equal. induction ch as [|c ch IH]; [reflexivity |]. cbn. rewrite IH. reflexivity. Qed.
  Lemma rforest_app i f g : rforest i (f ++ g) = rforest i g ++ rforest i f.
  Proof. induction f as [|c f IH]; cbn; [rewrite app_nil_r; reflexivity | rewrite IH, app_assoc; reflexivity]. Qed.

  Definition below (i : nat) (r : list (nat * string)) : Prop := match r with [] => True | (j, _) :: _ => j < i end.

  (* reading lines back: the last tree of a forest comes first *)
  Fixpoint ssize (t : sk) : nat := match t with SK _ ch => S ((fix go (l : list sk) := match l with [] => 0 | c :: l => ssize c + go l end) ch) end.
  Fixpoint fsize (l : list sk) : nat := match l with [] => 0 | c :: l => ssize c + fsize l end.
  Lemma ssize_eq l ch : ssize (SK l ch) = S (fsize ch).
  Proof. reflexivity. Qed.
  Lemma fsize_app a b : fsize (a ++ b) = fsize a + fsize b.
  Proof. induction a as [|c a IH]; cbn; [reflexivity | rewrite IH; lia]. Qed.
  Lemma fsize_rev a : fsize (rev a) = fsize a.
  Proof. induction a as [|c a IH]; cbn; [reflexivity | rewrite fsize_app, IH; cbn; lia]. Qed.
  Fixpoint rl (i : nat) (f : list sk) : list (nat * string) := match f with [] => [] | c :: f => rlines i c ++ rl i f end.
  Lemma rforest_rl i f : rforest i f = rl i (rev f).
  Proof.
    assert (A : forall a b, rl i (a ++ b) = rl i a ++ rl i b) by (induction a as [|c a IH]; intro b; cbn; [reflexivity | rewrite IH, app_assoc; reflexivity]).
    induction f as [|c f IH]; [reflexivity |]. cbn. rewrite A, IH. cbn. rewrite app_nil_r. reflexivity.
  Qed.

  Lemma rl_inj n : forall i f g r s, fsize f < n -> below i r -> below i s ->
    rl i f ++ r = rl i g ++ s -> f = g /\ r = s.
  Proof.
    induction n as [|n IH]; intros i f g r s L R S E; [lia |].
    destruct f as [|[l ch] f], g as [|[l' ch'] g].
    - auto.
    - cbn [rl] in E. rewrite rlines_eq in E. cbn in E. destruct r as [|(j & x) r]; [discriminate |].
      injection E as -> -> E. cbn in R. lia.
    - cbn [rl] in E. rewrite rlines_eq in E. cbn in E. destruct s as [|(j & x) s]; [discriminate |].
      injection E as <- <- E. cbn in S. lia.
    - cbn [rl] in E. rewrite !rlines_eq, !rforest_rl in E. cbn [app] in E. injection E as <- E.
      rewrite <- !app_assoc in E. cbn [fsize] in L. rewrite ssize_eq in L.
      assert (B1 : below (Datatypes.S i) (rl i f ++ r)).
      { destruct f as [|[a b] f]; cbn [rl app]; [destruct r as [|(j & x) r]; cbn in *; [exact I | lia] |].
        rewrite rlines_eq. cbn. lia. }
      assert (B2 : below (Datatypes.S i) (rl i g ++ s)).
      { destruct g as [|[a b] g]; cbn [rl app]; [destruct s as [|(j & x) s]; cbn in *; [exact I | lia] |].
        rewrite rlines_eq. cbn. lia. }
      destruct (IH (Datatypes.S i) (rev ch) (rev ch') (rl i f ++ r) (rl i g ++ s)) as (E1 & E2); auto.
      { rewrite fsize_rev. lia. }
      destruct (IH i f g r s) as (E3 & E4); auto; [lia |].
      subst. split; [| reflexivity]. f_equal. f_equal. rewrite <- (rev_involutive ch), E1. apply rev_involutive.
  Qed.

  Lemma leaf_lines_indent i x : no_cai_nai x ->
    leaf_lines elidable selmao_name i x = map (fun l => (Some i, l)) (entries elidable selmao_name x).
  Proof.
    intro N. unfold no_cai_nai in N. unfold leaf_lines, entries, entry. destruct (dat x); try reflexivity.
    destruct (elidable x); [reflexivity |]. cbn [map]. f_equal. unfold code_is.
    destruct (cmavo_selmao code) as [s|]; [| reflexivity].
    destruct (tok_eqb s T_UI) eqn:U; [apply tok_eqb_eq in U; subst s; rewrite map_app, map_app |].
    - destruct (neg x), (cai x) as [[]|]; reflexivity.
    - destruct (tok_eqb s T_CAI) eqn:C; [apply tok_eqb_eq in C; subst s; rewrite N; reflexivity |].
      destruct s; try reflexivity. vm_compute in U. discriminate U.
  Qed.

  Lemma print_tree_lines t : forall i, Forall no_cai_nai (leaves t) ->
    rev (print_tree elidable selmao_name t i) = map (fun e => (Some (fst e), snd e)) (rforest i (skeleton elidable selmao_name t)).
  Proof.
    induction t as [x|ty ch IH] using tree_induction; intros i F; cbn [print_tree skeleton].
    - inversion F; subst. rewrite leaf_lines_indent by assumption.
      generalize (entries elidable selmao_name x) as l. induction l as [|a l IHl]; [reflexivity |].
      cbn [map rev rforest]. rewrite IHl. rewrite map_app. reflexivity.
    - cbn [rforest]. rewrite rlines_eq. cbn [app map fst snd]. rewrite rev_app_distr. cbn [rev app]. f_equal.
      cbn [leaves] in F. induction IH as [|c ch C _ IH]; [reflexivity |]. cbn [flat_map] in *.
      apply Forall_app in F. destruct F as (F1 & F2).
      rewrite rev_app_distr, (IH F2), (C _ F1), rforest_app, map_app. reflexivity.
  Qed.

  Lemma print_tree_inj t u : Forall no_cai_nai (leaves t) -> Forall no_cai_nai (leaves u) ->
    print_tree elidable selmao_name t 0 = print_tree elidable selmao_name u 0 ->
    skeleton elidable selmao_name t = skeleton elidable selmao_name u.
  Proof.
    intros F G E. apply (f_equal (@rev _)) in E. rewrite !print_tree_lines in E by assumption.
    assert (I : forall a b : list (nat * string), map (fun e => (Some (fst e), snd e)) a = map (fun e => (Some (fst e), snd e)) b -> a = b).
    { induction a as [|(x & y) a IH]; intros [|(x' & y') b]; cbn; intro H; try discriminate; [reflexivity |].
      injection H as -> -> H. f_equal. auto. }
    apply I in E. rewrite !rforest_rl in E.
    destruct (rl_inj (Datatypes.S (fsize (rev (skeleton elidable selmao_name t)))) 0 (rev (skeleton elidable selmao_name t))
      (rev (skeleton elidable selmao_name u)) [] []) as (E1 & _); try exact Logic.I; [lia | rewrite !app_nil_r; exact E |].
    rewrite <- (rev_involutive (skeleton _ _ t)), E1. apply rev_involutive.
  Qed.

  (* the characters *)
  Lemma string_app_assoc (a b c : string) : ((a ++ b) ++ c = a ++ b ++ c)%string.
  Proof. induction a as [|x a IH]; cbn; [reflexivity | rewrite IH; reflexivity]. Qed.
  Lemma concat_nil_app (a b : list string) : (String.concat "" (a ++ b) = String.concat "" a ++ String.concat "" b)%string.
  Proof.
    assert (C : forall x l, String.concat "" (x :: l) = (x ++ String.concat "" l)%string).
    { intros x [|y l]; cbn; [| reflexivity]. induction x as [|z x IH]; cbn; [reflexivity | rewrite <- IH; reflexivity]. }
    induction a as [|x a IH]; [reflexivity |]. cbn [app]. rewrite !C, IH, string_app_assoc. reflexivity.
  Qed.
  Lemma concat_nil_cons x (l : list string) : String.concat "" (x :: l) = (x ++ String.concat "" l)%string.
  Proof.
    change (x :: l) with ([x] ++ l). rewrite concat_nil_app. reflexivity.
  Qed.
  Lemma show_indent_branch i : show_indent i = branch i.
  Proof.
    induction i as [|i IH]; [reflexivity |]. destruct i as [|i]; [reflexivity |].
    change (show_indent (S (S i))) with ("| " ++ show_indent (S i))%string. rewrite IH. cbn [branch repeat].
    rewrite concat_nil_cons, string_app_assoc. reflexivity.
  Qed.
  Lemma print_tree_drawn t : forall i, Forall no_cai_nai (leaves t) ->
    String.concat "" (map line_text (print_tree elidable selmao_name t i)) =
    String.concat "" (map (drawn i) (skeleton elidable selmao_name t)).
  Proof.
    induction t as [x|ty ch IH] using tree_induction; intros i F; cbn [print_tree skeleton].
    - inversion F; subst. rewrite leaf_lines_indent by assumption. f_equal. rewrite !map_map. apply map_ext. intro l.
      cbn [drawn map String.concat]. unfold line_text. cbn [fst snd]. rewrite show_indent_branch. reflexivity.
    - rewrite map_app, concat_nil_app. cbn [map String.concat drawn]. unfold line_text at 2. cbn [fst snd].
      rewrite show_indent_branch. f_equal. cbn [leaves] in F.
      induction IH as [|c ch C _ IH]; [reflexivity |]. cbn [flat_map] in *.
      apply Forall_app in F. destruct F as (F1 & F2).
      rewrite !map_app, !concat_nil_app, (IH F2), (C _ F1). reflexivity.
  Qed.

  (* reading the characters back *)
  Definition ok_line (e : nat * string) : Prop := plain_label (snd e).
  Definition lt (e : nat * string) : string := (branch (fst e) ++ snd e ++ nl)%string.
  Lemma upto_nl a b r s : ~ In (ascii_of_nat 10) (list_ascii_of_string a) -> ~ In (ascii_of_nat 10) (list_ascii_of_string b) ->
    (a ++ nl ++ r = b ++ nl ++ s)%string -> a = b /\ r = s.
  Proof.
    revert b. induction a as [|x a IH]; intros [|y b] A B E; cbn in *.
    - injection E as E. split; [reflexivity | exact E].
    - injection E as E _. exfalso. apply B. left. symmetry. exact E.
    - injection E as E _. exfalso. apply A. left. exact E.
    - injection E as -> E. destruct (IH b) as (-> & ->); try (intro; eauto); [| split; reflexivity]. exact E.
  Qed.
  Lemma branch_SS k : branch (S (S k)) = ("| " ++ branch (S k))%string.
  Proof. cbn [branch repeat]. rewrite concat_nil_cons, string_app_assoc. reflexivity. Qed.
  Lemma branch_inj i : forall j a b r s, plain_label a -> plain_label b ->
    (branch i ++ a ++ nl ++ r = branch j ++ b ++ nl ++ s)%string -> i = j /\ a = b /\ r = s.
  Proof.
    assert (D : forall k a r, branch (S k) <> "" /\ (forall c z, branch (S k) ++ r = String c z -> c = "+"%char \/ c = "|"%char)%string
      /\ (plain_label a -> forall c z, (a ++ nl ++ r = String c z)%string -> c <> "+"%char /\ c <> "|"%char)).
    { intros k a r. split; [| split].
      - destruct k; [discriminate | rewrite branch_SS; discriminate].
      - intros c z E. destruct k; [cbn in E | rewrite branch_SS in E; cbn in E]; injection E as <- _; [left | right]; reflexivity.
      - intros (_ & P) c z E. destruct a as [|x a]; cbn in E; injection E as <- _; [split; discriminate | exact P]. }
    assert (X : forall k a b r s, plain_label a -> (a ++ nl ++ r <> branch (S k) ++ b ++ nl ++ s)%string).
    { intros k a b r s P E. destruct (D k a r) as (_ & _ & Q). destruct (D k b (b ++ nl ++ s)%string) as (_ & R & _).
      destruct (branch (S k) ++ b ++ nl ++ s)%string as [|c z] eqn:Z.
      { destruct a; discriminate E. }
      specialize (R c z eq_refl). destruct (Q P c z E). destruct R; contradiction. }
    induction i as [|i IH]; intros j a b r s A B E.
    - destruct j as [|j]; [| exfalso; eapply X; [exact A | exact E]].
      cbn [branch] in E. cbn [String.append] in E. apply upto_nl in E; [| apply A | apply B]. tauto.
    - destruct j as [|j]; [exfalso; eapply X; [exact B | symmetry; exact E] |].
      destruct i as [|i], j as [|j].
      + change (branch 1) with "+-" in E. cbn [String.append] in E. injection E as E.
        apply upto_nl in E; [| apply A | apply B]. tauto.
      + rewrite branch_SS in E. discriminate E.
      + rewrite branch_SS in E. discriminate E.
      + rewrite !branch_SS, !string_app_assoc in E. cbn [String.append] in E. injection E as E.
        destruct (IH (S j) a b r s A B E) as (F & ?). split; [lia | assumption].
  Qed.
  Lemma lines_inj l : forall m, Forall ok_line l -> Forall ok_line m ->
    String.concat "" (map lt l) = String.concat "" (map lt m) -> l = m.
  Proof.
    assert (N : forall e r, (lt e ++ r)%string <> "").
    { intros (i & a) r. unfold lt. cbn [fst snd]. rewrite !string_app_assoc. destruct (branch i); [destruct a |]; discriminate. }
    induction l as [|(i & a) l IH]; intros [|(j & b) m] L M E; [reflexivity | | |].
    - cbn [map] in E. rewrite concat_nil_cons in E. symmetry in E. apply N in E. destruct E.
    - cbn [map] in E. rewrite concat_nil_cons in E. apply N in E. destruct E.
    - cbn [map] in E. rewrite !concat_nil_cons in E. unfold lt at 1 3 in E. cbn [fst snd] in E.
      rewrite !string_app_assoc in E. inversion L; subst. inversion M; subst.
      apply branch_inj in E; [| assumption | assumption]. destruct E as (-> & -> & E). f_equal. auto.
  Qed.
  Definition lines (i : nat) (f : list sk) : list (nat * string) := rev (rforest i f).
  Lemma plain_ind (P : sk -> Prop) : (forall l ch, Forall P ch -> P (SK l ch)) -> forall t, P t.
  Proof.
    intro H. fix F 1. intros [l ch]. apply H. induction ch as [|c ch IH]; constructor; [apply F | exact IH].
  Qed.
  Lemma lines_app i f g : lines i (f ++ g) = lines i f ++ lines i g.
  Proof. unfold lines. rewrite rforest_app, rev_app_distr. reflexivity. Qed.
  Lemma lines_node i l ch : lines i [SK l ch] = lines (S i) ch ++ [(i, l)].
  Proof. unfold lines. cbn [rforest app]. rewrite rlines_eq. reflexivity. Qed.
  Lemma lines_cons i c f : lines i (c :: f) = lines i [c] ++ lines i f.
  Proof. apply (lines_app i [c] f). Qed.
  Lemma drawn_lines t : forall i, drawn i t = String.concat "" (map lt (lines i [t])).
  Proof.
    induction t as [l ch IH] using plain_ind. intro i. rewrite lines_node, map_app, concat_nil_app. cbn [drawn map String.concat].
    unfold lt at 2. cbn [fst snd]. f_equal. induction IH as [|c ch C _ IH]; [reflexivity |].
    rewrite lines_cons, map_app, concat_nil_app, <- C, <- IH. cbn [map]. apply concat_nil_cons.
  Qed.
  Lemma drawn_forest i f : String.concat "" (map (drawn i) f) = String.concat "" (map lt (lines i f)).
  Proof.
    induction f as [|c f IH]; [reflexivity |]. cbn [map]. rewrite concat_nil_cons, IH, drawn_lines.
    rewrite (lines_cons i c f), map_app, concat_nil_app. reflexivity.
  Qed.
  Lemma lines_plain t : plain_sk t -> forall i, Forall ok_line (lines i [t]).
  Proof.
    induction t as [l ch IH] using plain_ind. intros P i. inversion P as [? ? Q R]; subst. rewrite lines_node.
    apply Forall_app. split; [| constructor; [exact Q | constructor]]. clear P Q.
    induction IH as [|c ch C _ IH]; [constructor |]. inversion R; subst. rewrite lines_cons. apply Forall_app. auto.
  Qed.
  Lemma forest_plain f i : Forall plain_sk f -> Forall ok_line (lines i f).
  Proof.
    induction 1 as [|c f P _ IH]; [constructor |]. rewrite lines_cons. apply Forall_app. split; [apply lines_plain; exact P | exact IH].
  Qed.
  Lemma forest_inj f g : rforest 0 f = rforest 0 g -> f = g.
  Proof.
    intro E. rewrite !rforest_rl in E.
    destruct (rl_inj (Datatypes.S (fsize (rev f))) 0 (rev f) (rev g) [] []) as (E1 & _); try exact Logic.I; [lia | rewrite !app_nil_r; exact E |].
    rewrite <- (rev_involutive f), E1. apply rev_involutive.
  Qed.

  Lemma picture_exact t : Forall no_cai_nai (leaves t) ->
    print_parse_tree elidable selmao_name t = String.concat "" (map (drawn 0) (skeleton elidable selmao_name t)).
  Proof. apply print_tree_drawn. Qed.
  Lemma picture_inj t u : Forall no_cai_nai (leaves t) -> Forall no_cai_nai (leaves u) ->
    Forall plain_sk (skeleton elidable selmao_name t) -> Forall plain_sk (skeleton elidable selmao_name u) ->
    print_parse_tree elidable selmao_name t = print_parse_tree elidable selmao_name u ->
    skeleton elidable selmao_name t = skeleton elidable selmao_name u.
  Proof.
    intros T U P Q E. rewrite !picture_exact in E by assumption. rewrite !drawn_forest in E.
    apply lines_inj in E; [| apply forest_plain; assumption | apply forest_plain; assumption].
    unfold lines in E. apply (f_equal (@rev _)) in E. rewrite !rev_involutive in E. apply forest_inj. exact E.
  Qed.
End TREE.
