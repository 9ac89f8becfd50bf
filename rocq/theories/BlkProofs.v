(* The interlinear output of parse trees: a label is followed by what it belongs to. *)
From Coq Require Import String Ascii List NArith ZArith Bool Arith Lia.
From Verif Require Import Base TokData CmavoData TokModel StreamModel TreeModel TreeOutModel ErasureProofs GrammarData GramModel GramSpec
  GramProofs PassProofs2 PassProofs3 ConnectModel ConnectSpec ConnectProofs ConnectProofs2.
From Verif Require Import OutModel OutSpec OutProofs OutProofs2 OutProofs3.
Import TransModel(tctx).
Import ListNotations.
Open Scope string_scope.
Open Scope list_scope.

(* ---------- every node of a production has a word ---------- *)

(* these may be empty *)
Definition loose : list string := ["TEXT_1"; "TEXT"; "CHUNKS"].
Definition firm (s : sym) : bool := match s with SE _ => false | ST _ => true | SN k => negb (existsb (String.eqb k) loose) end.
Lemma all_firm : forallb (fun r => existsb (String.eqb (fst r)) loose || forallb (existsb firm) (snd r)) grammar = true.
Proof. vm_compute. reflexivity. Qed.
Lemma firm_alt ty ss : In ss (alternatives ty) -> existsb (String.eqb ty) loose = false -> existsb firm ss = true.
Proof.
  unfold alternatives. intros I L. apply in_flat_map in I. destruct I as ([k l] & F & I). cbn [fst snd] in I. destruct (String.eqb_spec k ty) as [->|]; [| destruct I].
  pose proof all_firm as A. rewrite forallb_forall in A. specialize (A _ F). cbn [fst snd] in A. rewrite L in A. cbn [orb] in A. rewrite forallb_forall in A. exact (A _ I).
Qed.
Lemma firm_child ss ch : fitsx ss ch -> existsb firm ss = true ->
  exists j c, nth_error ch j = Some c /\ ((exists k cc, c = NT k cc /\ existsb (String.eqb k) loose = false /\ In (SN k) ss) \/ exists t, wordlike t c).
Proof.
  induction 1 as [|ty ss ch cs H IH|t x ss cs W H IH|t ss cs H IH|t x ss cs W H IH]; cbn [existsb]; intro E; [discriminate E | | | |].
  - cbn [firm] in E. destruct (existsb (String.eqb ty) loose) eqn:L.
    + destruct (IH E) as (j & c & N & [(k & cc & -> & LK & IK)|W]); exists (S j); eexists; (split; [exact N |]); [left; exists k, cc; cbn [In]; auto | right; exact W].
    + exists 0, (NT ty ch). split; [reflexivity |]. left. exists ty, ch. cbn [In]. auto.
  - exists 0, x. split; [reflexivity |]. right. exists t. exact W.
  - destruct (IH E) as (j & c & N & [(k & cc & -> & LK & IK)|W]); exists j; eexists; (split; [exact N |]); [left; exists k, cc; cbn [In]; auto | right; exact W].
  - destruct (IH E) as (j & c & N & [(k & cc & -> & LK & IK)|W']); exists (S j); eexists; (split; [exact N |]); [left; exists k, cc; cbn [In]; auto | right; exact W'].
Qed.
Lemma no_aug_alt : forallb (fun r => forallb (fun ss => negb (existsb (fun s => match s with SN k => String.eqb k "AUGMENTED" | _ => false end) ss)) (snd r)) grammar = true.
Proof. vm_compute. reflexivity. Qed.
Lemma no_aug ty ss : In ss (alternatives ty) -> ~ In (SN "AUGMENTED") ss.
Proof.
  unfold alternatives. intros I L. apply in_flat_map in I. destruct I as ([k l] & F & I). cbn [fst snd] in I. destruct (String.eqb_spec k ty) as [->|]; [| destruct I].
  pose proof no_aug_alt as A. rewrite forallb_forall in A. specialize (A _ F). cbn [snd] in A. rewrite forallb_forall in A. specialize (A _ I). apply negb_true_iff in A.
  assert (B : existsb (fun s => match s with SN k => String.eqb k "AUGMENTED" | _ => false end) ss = true) by (apply existsb_exists; eexists; split; [exact L | reflexivity]). congruence.
Qed.
Lemma has_leaf t : forall ty ch, t = NT ty ch -> parsed t -> ty <> "AUGMENTED" -> existsb (String.eqb ty) loose = false -> exists q x, subtree t q = Some (Leaf x).
Proof.
  induction t as [x|k c IH] using tree_ind2; intros ty ch E P A L; [discriminate E |]. injection E as -> ->. pose proof P as P'. apply parsed_NT in P. destruct P as [X|[(ss & IS & F) PC]]; [contradiction |].
  destruct (firm_child ss ch F (firm_alt ty ss IS L)) as (j & c & N & [(k & cc & -> & LK & IK)|(t & W)]).
  - pose proof (nth_error_In _ _ N) as NI. rewrite Forall_forall in IH, PC. destruct (IH _ NI k cc eq_refl (PC _ NI)) as (q & x & E); [intros ->; exact (no_aug _ _ IS IK) | exact LK |].
    exists (j :: q), x. cbn [subtree]. rewrite N. exact E.
  - destruct W as [x W|bs x us B W O]; [exists [j], x; cbn [subtree]; rewrite N; reflexivity |]. exists [j; List.length bs], x. cbn [subtree]. rewrite N. rewrite nth_error_app2 by (rewrite map_length; lia).
    rewrite map_length, Nat.sub_diag. reflexivity.
Qed.
Lemma leaves_have t : forall p q x, subtree t q = Some (Leaf x) -> leaves p t <> [].
Proof.
  induction t as [y|k ch IH] using tree_ind2; intros p q x E; [discriminate |]. destruct q as [|i q]; [discriminate E |]. rewrite leaves_kids. cbn [subtree] in E.
  generalize 0. revert i E. induction IH as [|c l H F IHF]; intros i E j; [destruct i; discriminate E |]. cbn [leaves_from]. destruct i as [|i]; cbn [nth_error] in E.
  - intro Q. apply app_eq_nil in Q. exact (H _ _ _ E (proj1 Q)).
  - intro Q. apply app_eq_nil in Q. exact (IHF _ E _ (proj2 Q)).
Qed.

(* each term has a word *)
Definition worded (a : atree) : Prop := forall q b n ch p, asub a q = Some (ANT "TERM" b n ch) -> leaves p (bare (ANT "TERM" b n ch)) <> [].
Lemma worded_kid ty b n ch : worded (ANT ty b n ch) -> Forall worded ch.
Proof. intro H. rewrite Forall_forall. intros c I. apply In_nth_error in I. destruct I as [i N]. intros q b' n' ch' p E. apply (H (i :: q) b' n' ch' p). cbn [asub]. rewrite N. exact E. Qed.
Lemma parse_worded rb t : parse_tree t -> worded (add_bracketing_tags rb (expand_bahe_ui t)).
Proof.
  intros T q b n ch p E. apply asub_bare in E. rewrite bare_tags in E. pose proof (node_parsed t q _ _ T E ltac:(discriminate)) as PN.
  destruct (has_leaf _ _ _ eq_refl PN ltac:(discriminate) eq_refl) as (r & x & L). exact (leaves_have _ _ _ _ L).
Qed.

(* ---------- what follows a label ---------- *)

Definition hidden (b : bracket) : bool := match b with BR_NONE => true | _ => false end.
(* a bracket is opened or a word comes before any bracket is closed *)
Fixpoint opens (cs : list call) : bool :=
  match cs with
  | [] => false
  | Loj _ :: _ => true
  | Open b _ :: cs => if hidden b then opens cs else true
  | Close b _ :: cs => if hidden b then opens cs else false
  | _ :: cs => opens cs
  end.
(* no bracket at all, or the first that is seen is opened *)
Fixpoint quiet (cs : list call) : bool :=
  match cs with
  | [] => true
  | Loj _ :: _ => true
  | Open b _ :: cs => if hidden b then quiet cs else true
  | Close b _ :: cs => if hidden b then quiet cs else false
  | _ :: cs => quiet cs
  end.
Lemma quiet_app a b : quiet a = true -> quiet b = true -> quiet (a ++ b) = true.
Proof. induction a as [|[] a IH]; cbn [app quiet]; auto; destruct (hidden b0); auto. Qed.
Lemma opens_app a b : opens a = true -> opens (a ++ b) = true.
Proof. induction a as [|[] a IH]; cbn [app opens]; intro H; auto; try discriminate H; destruct (hidden _); auto. Qed.
Lemma nested_quiet l : nested l -> quiet l = true.
Proof.
  induction 1 as [|c l Hc Hl IH|b n l l' Hl IHl Hl' IHl']; [reflexivity | destruct c; try discriminate Hc; cbn [quiet]; auto |].
  cbn [quiet]. destruct (hidden b) eqn:E; [| reflexivity]. apply quiet_app; [exact IHl |]. cbn [quiet]. rewrite E. exact IHl'.
Qed.
Lemma quiet_opens l : quiet l = true -> shown_words l <> [] -> opens l = true.
Proof. induction l as [|[] l IH]; cbn [quiet opens shown_words flat_map app]; intros Q W; auto; destruct (hidden b); auto; try discriminate Q. Qed.

(* a label has some text *)
Definition real (c : call) : bool := match c with TagText _ _ _ _ => true | Partial (String _ _) => true | _ => false end.
Inductive full_labels : list call -> Prop :=
| fl_nil : full_labels []
| fl_one l l' : forallb label_call l = true -> existsb real l = true -> full_labels l' -> full_labels (StartTag :: l ++ l').
Inductive followed : list call -> Prop :=
| fo_nil : followed []
| fo_plain c l : plain_call c = true -> followed l -> followed (c :: l)
| fo_tags l l' : full_labels l -> l <> [] -> opens l' = true -> followed l' -> followed (StartTags :: l ++ EndTags :: l').
Lemma followed_app a b : followed a -> followed b -> followed (a ++ b).
Proof.
  induction 1 as [|c l Hc Hl IH|l l' H1 H2 HO H3 IH]; intro H; cbn [app]; [exact H|constructor; auto|].
  rewrite <- app_assoc. cbn [app]. apply fo_tags; auto. apply opens_app. exact HO.
Qed.
Lemma followed_plain l : forallb plain_call l = true -> followed l.
Proof. induction l as [|c l IH]; cbn [forallb]; intro H; [constructor|]. apply andb_prop in H. constructor; tauto. Qed.
Lemma full_labels_app a b : full_labels a -> full_labels b -> full_labels (a ++ b).
Proof.
  induction 1 as [|l l' H1 HR H2 IH]; intro H; cbn [app]; [exact H|]. rewrite <- app_assoc. constructor; auto.
Qed.

Definition tagged (m : mode) (cs : list call) : Prop :=
  match m with SHOW_TAG_TRANS => forallb label_call cs = true | _ => followed cs end.
Lemma tagged_app m a b : tagged m a -> tagged m b -> tagged m (a ++ b).
Proof.
  destruct m; cbn [tagged]; try apply followed_app. intros H1 H2. rewrite forallb_app, H1, H2. reflexivity.
Qed.
Lemma tagged_nil m : tagged m [].
Proof. destruct m; constructor. Qed.
Lemma tagged_word m t : tagged m (word m t).
Proof. destruct m; try reflexivity; apply followed_plain; reflexivity. Qed.
Lemma tagged_say m e k : m <> SHOW_TAG_TRANS -> tagged m (say e ++ [Eols k]).
Proof.
  intro N. assert (followed (say e ++ [Eols k])).
  { apply followed_plain. unfold say. destruct (String.eqb e ""); reflexivity. }
  destruct m; try exact H. contradiction.
Qed.

Section LABELS.
  Variable translate : string -> option string.
  Variable adv_translate : string -> Z -> tctx -> outcome string.
  Variable translate_unknown : string -> Z -> tctx -> outcome (option string).
  Variable P : props.
  Variable top : atree.
  Notation outi := (output_internal translate adv_translate translate_unknown P top).
  Notation outs := (outs translate adv_translate translate_unknown P top).
  Notation jump := (jump translate adv_translate translate_unknown P top).
  Definition fine (a : atree) : Prop := obs a /\ worded a.
  Definition ordered (f : nat) (a : atree) : Prop := forall m p cs, (lojban m = true -> fine a) -> outi f m p a = Ok cs -> tagged m cs.

  Lemma leaf_labels m p x b n cs : output_leaf translate adv_translate translate_unknown P top m p x b n = Ok cs -> tagged m cs.
  Proof.
    assert (T : forall e k, forallb label_call (say_tag e ++ [Eols k]) = true).
    { intros e k. unfold say_tag. destruct (String.eqb e ""); reflexivity. }
    unfold output_leaf. intro H. oinv H. destruct a as [l e].
    assert (G : forall s d, tagged m ((if lojban m then [Loj s] else []) ++
            (if english m then say e ++ [Eols (p_eols P p)]
             else match m with
                  | SHOW_LOJBAN_AND_INDICATORS =>
                      if match d with N_CMAVO s _ _ => bystander s | _ => false end
                      then say e ++ [Eols (p_eols P p)] else []
                  | SHOW_TAG_TRANS => say_tag e ++ [Eols (p_eols P p)]
                  | _ => []
                  end))).
    { intros s d. assert (L1 : followed [Loj s]) by (apply followed_plain; reflexivity).
      destruct m; cbn [lojban english].
      - apply (tagged_nil SHOW_NONE).
      - exact L1.
      - apply (tagged_say SHOW_ENGLISH). discriminate.
      - apply T.
      - apply (tagged_app SHOW_LOJBAN_AND_INDICATORS [Loj s]); [exact L1|].
        destruct (match d with N_CMAVO s _ _ => _ | _ => _ end); [apply tagged_say; discriminate|constructor].
      - apply (tagged_app SHOW_BOTH [Loj s]); [exact L1|]. apply tagged_say. discriminate. }
    destruct (dat x) eqn:D; try (oinv H; inversion H; apply (G _ (dat x)); fail);
      try (oinv H; inversion H; specialize (G a (dat x)); rewrite D in G; exact G).
    inversion H; subst. assert (L1 : followed [Open b n; Loj l]) by (apply followed_plain; reflexivity).
    assert (L2 : followed [Close b n]) by (apply followed_plain; reflexivity).
    destruct m; cbn [lojban english].
    - apply (tagged_nil SHOW_NONE).
    - exact (followed_app _ _ L1 L2).
    - rewrite app_nil_r. apply (tagged_say SHOW_ENGLISH). discriminate.
    - rewrite app_nil_r. apply T.
    - exact (followed_app _ _ L1 L2).
    - apply (tagged_app SHOW_BOTH [_; _]); [exact L1|]. apply tagged_app; [apply tagged_say; discriminate|exact L2].
  Qed.

  Lemma outs_labels f m p ch i cs : Forall (ordered f) ch -> (lojban m = true -> Forall fine ch) -> in_turn (outs f m p i ch) = Ok cs -> tagged m cs.
  Proof.
    intros F G. revert i cs. induction F as [|c l Hc Hl IH]; cbn [OutProofs.outs in_turn]; intros i cs H.
    - inversion H. apply tagged_nil.
    - oinv H. oinv H. inversion H; subst. apply tagged_app; [exact (Hc _ _ _ (fun L => Forall_inv (G L)) E)|exact (IH (fun L => Forall_inv_tail (G L)) _ _ E0)].
  Qed.
  (* labels of the children in another mode that is not that of tags *)
  Lemma outs_labels' f m m' p ch i cs : Forall (ordered f) ch -> (lojban m' = true -> Forall fine ch) -> m <> SHOW_TAG_TRANS -> m' <> SHOW_TAG_TRANS ->
    in_turn (outs f m' p i ch) = Ok cs -> tagged m cs.
  Proof.
    intros F G N N' H. apply (outs_labels _ _ _ _ _ _ F G) in H. destruct m; try contradiction; destruct m'; try contradiction; exact H.
  Qed.

  Variable f : nat.
  Hypothesis jump_ok : forall m q cs, jump f m q = Ok cs -> lojban m = false -> tagged m cs.

  Lemma tag_labels t cs : output_tag adv_translate top (jump f) t = Ok cs -> full_labels cs /\ cs <> [].
  Proof.
    assert (G : forall l, forallb label_call l = true -> existsb real l = true -> full_labels (StartTag :: l) /\ StartTag :: l <> []).
    { intros l H R. split; [|discriminate]. rewrite <- (app_nil_r l). constructor; [exact H|exact R|constructor]. }
    destruct t; cbn [output_tag]; intro H; repeat oinv H; try (inversion H; apply G; reflexivity).
    - inversion H; subst. cbn [app]. apply jump_ok in E; [| reflexivity]. cbn [tagged] in E. apply G; [| reflexivity].
      cbn [forallb label_call]. rewrite forallb_app, E. reflexivity.
    - destruct a as [pl k]. oinv H. inversion H. apply G; reflexivity.
  Qed.
  Lemma tags_labels l cs : in_turn (map (output_tag adv_translate top (jump f)) l) = Ok cs -> full_labels cs /\ (l <> [] -> cs <> []).
  Proof.
    revert cs. induction l as [|t l IH]; cbn [map in_turn]; intros cs H; [inversion H; split; [constructor|tauto]|].
    oinv H. oinv H. inversion H; subst. destruct (tag_labels _ _ E) as [L1 N1]. destruct (IH _ E0) as [L2 _].
    split; [apply full_labels_app; assumption|]. intros _ C. apply app_eq_nil in C. tauto.
  Qed.

  Lemma word_labels m p ch w cs : Forall (ordered f) ch -> (lojban m = true -> Forall fine ch) -> with_word (fun m => outs f m p 0 ch) m w = Ok cs -> tagged m cs.
  Proof.
    intros F G H. unfold with_word in H. oinv H. oinv H. inversion H; subst.
    assert (A : tagged m a).
    { destruct ch as [|c l]; [inversion E; apply tagged_nil|]. rewrite firstn_outs in E.
      apply outs_labels in E; [exact E| |]; [constructor; [exact (Forall_inv F)|constructor] | intro L; constructor; [exact (Forall_inv (G L))|constructor]]. }
    assert (B : tagged m a0).
    { destruct ch as [|c l]; [inversion E0; apply tagged_nil|]. rewrite skipn_outs in E0.
      apply outs_labels in E0; [exact E0|exact (Forall_inv_tail F)|]. intro L. exact (Forall_inv_tail (G L)). }
    apply tagged_app; [exact A|]. apply tagged_app; [|exact B].
    destruct m; cbn [english]; try apply tagged_nil; apply followed_plain; reflexivity.
  Qed.

  Lemma inside_labels m p ty b n ch cs : Forall (ordered f) ch -> (lojban m = true -> fine (ANT ty b n ch)) ->
    output_inside translate adv_translate P top (jump f) (fun m => outs f m p 0 ch) m p ty b n ch = Ok cs -> tagged m cs.
  Proof.
    intros F GN H. assert (G : lojban m = true -> Forall fine ch).
    { intro L. destruct (GN L) as [O W]. apply obs_kids in O. apply worded_kid in W. rewrite Forall_forall in *. intros c IC. split; auto. }
    pose proof (fun i cs => outs_labels f m p ch i cs F G) as K. pose proof (fun w cs => word_labels m p ch w cs F G) as W.
    assert (LAI : forall cs, (if lojban m then in_turn (outs f SHOW_LOJBAN_AND_INDICATORS p 0 ch) else Ok []) = Ok cs -> tagged m cs).
    { intros c X. destruct (lojban m) eqn:L; [|inversion X; apply tagged_nil].
      apply (outs_labels' _ m _ _ _ _ _ F (fun _ => G eq_refl)) in X; [exact X|destruct m; discriminate|discriminate]. }
    unfold output_inside in H.
    destruct (String.eqb ty "SELBRI_3" && _); [exact (W _ _ H)|].
    destruct (String.eqb_spec ty "TERM") as [->|].
    { unfold output_term in H. oinv H. oinv H. inversion H; subst. pose proof (K _ _ E0) as K0.
      destruct (lojban m) eqn:L; [|inversion E; exact K0].
      destruct (p_term_tags P p) as [|t l]; [inversion E; exact K0|]. oinv E. inversion E; subst.
      destruct (tags_labels _ _ E1) as [L1 N1]. assert (followed (StartTags :: a1 ++ EndTags :: a0)).
      { apply fo_tags; [exact L1|apply N1; discriminate| |destruct m; try discriminate L; exact K0].
        assert (SK : skeleton a0 = skels (p_elidable P) p 0 ch).
        { assert (FS : Forall (good translate adv_translate translate_unknown P top f) ch) by (rewrite Forall_forall; intros c _; apply out_skeleton).
          assert (OB : lojban m = true -> Forall obs ch) by (intros _; rewrite Forall_forall; intros c IC; pose proof (G eq_refl) as GF; rewrite Forall_forall in GF; exact (proj1 (GF c IC))).
          pose proof (skel_outs _ _ _ _ _ f m p ch 0 a0 FS OB E0) as SK. rewrite L in SK. exact SK. }
        apply quiet_opens.
        - apply nested_quiet, (nested_skeleton (skels (p_elidable P) p 0 ch)); [|exact SK]. clear. generalize 0. induction ch as [|c l IH]; intro i; cbn [skels]; [constructor|].
          apply nested_app; [apply skel_nested|apply IH].
        - rewrite <- shown_skeleton, SK. destruct (GN eq_refl) as [_ WD]. specialize (WD [] b n ch p eq_refl).
          pose proof (skel_words (p_elidable P) (ANT "TERM" b n ch) p) as SW. rewrite skel_nt in SW. cbn [shown_words flat_map app] in SW.
          fold (shown_words (skels (p_elidable P) p 0 ch ++ [Close b n])) in SW. rewrite shown_app in SW. cbn [shown_words flat_map] in SW. rewrite app_nil_r in SW. fold (shown_words (skels (p_elidable P) p 0 ch)) in SW.
          rewrite SW. intro Q. apply map_eq_nil in Q. exact (WD Q). }
      cbn [app]. rewrite <- app_assoc. cbn [app]. destruct m; try discriminate L; exact H0. }
    destruct (String.eqb ty "NO_CU_SENTENCE").
    { destruct (Nat.eqb _ _); [exact (W _ _ H)|exact (K _ _ H)]. }
    destruct (String.eqb ty "OBSERVATIVE_SENTENCE").
    { destruct ch as [|c l]; [discriminate H|]. rewrite firstn_outs in H. apply outs_labels in H; [exact H| |]; [constructor; [exact (Forall_inv F)|constructor] | intro L; constructor; [exact (Forall_inv (G L))|constructor]]. }
    destruct (String.eqb ty "TIME_OFFSET").
    { unfold output_simple_time_offset in H. oinv H. oinv H. inversion H; subst. apply tagged_app; [exact (LAI _ E0)|].
      destruct m; cbn [english]; try apply tagged_nil; try (apply tagged_say; discriminate).
      unfold say_tag. destruct (String.eqb a ""); reflexivity. }
    destruct (one_of ty ["SPACE_INT_PROP"; _; _]).
    { unfold output_clustered in H. oinv H. destruct (match translate _ with Some t => _ | None => _ end).
      - oinv H. oinv H. inversion H; subst. apply tagged_app; [exact (LAI _ E1)|].
        destruct m; cbn [english]; try apply tagged_nil; apply followed_plain; reflexivity.
      - exact (K _ _ H). }
    destruct (String.eqb ty "SUMTI_TAIL").
    { unfold output_sumti_tail in H. destruct ch as [|[x b' n'|ty' b' n' cc] l]; [discriminate H|discriminate H|].
      destruct (is_ant "SUMTI_6" _); [|exact (K _ _ H)].
      rewrite skipn_outs, !firstn_outs in H. oinv H. oinv H. oinv H. inversion H; subst.
      set (c := ANT ty' b' n' cc) in *.
      assert (F1 : Forall (ordered f) [c]) by (constructor; [exact (Forall_inv F)|constructor]).
      apply tagged_app; [|apply tagged_app; [exact (outs_labels _ _ _ _ _ _ (Forall_inv_tail F) (fun L => Forall_inv_tail (G L)) E0)|]].
      - destruct (lojban m) eqn:L; [|inversion E; apply tagged_nil]. oinv E. inversion E; subst.
        assert (N : m <> SHOW_TAG_TRANS) by (destruct m; discriminate).
        apply (outs_labels' _ m _ _ _ _ _ F1 (fun _ => Forall_cons _ (Forall_inv (G eq_refl)) (Forall_nil _)) N) in E2; [|discriminate]. apply tagged_app; [exact E2|].
        destruct m; try contradiction; apply followed_plain; reflexivity.
      - destruct (english m) eqn:L; [|inversion E1; apply tagged_nil]. oinv E1. inversion E1; subst.
        assert (N : m <> SHOW_TAG_TRANS) by (destruct m; discriminate).
        apply (outs_labels' _ m _ _ _ _ _ F1 (fun L' : lojban SHOW_ENGLISH = true => False_ind _ (diff_false_true L')) N) in E2; [|discriminate]. apply (tagged_app m [Eng "[of]"]); [|exact E2].
        destruct m; try contradiction; apply followed_plain; reflexivity. }
    oinv H. destruct a; [exact (W _ _ H)|].
    destruct (one_of ty ["JEK"; _; _; _; _; _; _; _]); [|exact (K _ _ H)].
    unfold output_connective in H. oinv H. oinv H. inversion H; subst. apply tagged_app; [exact (LAI _ E0)|].
    destruct (english m || _) eqn:M; [|inversion E1; apply tagged_nil].
    assert (J : forall js r, jump f (match m with SHOW_TAG_TRANS => SHOW_TAG_TRANS | _ => SHOW_ENGLISH end) js = Ok r -> tagged m r).
    { intros js r X. apply jump_ok in X; destruct m; exact X || reflexivity. }
    assert (N : forall (k : bool) w, tagged m (if k then word m w else [])).
    { intros [] w; [apply tagged_word|apply tagged_nil]. }
    destruct (p_connective P p) as [[pos pat|pos js n1 n2]|]; [| |discriminate E1].
    - oinv E1. inversion E1. destruct (translate _); [apply tagged_word|apply tagged_nil].
    - destruct pos; try discriminate E1.
      + inversion E1. apply tagged_nil.
      + oinv E1. inversion E1. apply tagged_app; [apply N|exact (J _ _ E2)].
      + inversion E1. apply N.
      + oinv E1. inversion E1. apply tagged_app; [exact (J _ _ E2)|apply N].
  Qed.
End LABELS.

Theorem out_followed translate adv unk P top f : forall a, ordered translate adv unk P top f a.
Proof.
  induction f as [|f IHf].
  all: intro a; induction a as [x b n|ty b n ch IH] using atree_induct; intros m p cs GN H;
    [rewrite outi_leaf in H; exact (leaf_labels _ _ _ _ _ _ _ _ _ _ _ H)|rewrite outi_nt in H].
  all: unfold output_node in H; oinv H; apply inside_labels in E; [| |exact IH|exact GN].
  2: intros m' q cs' J _; discriminate J.
  3: { intros m' q cs' J LF. unfold jump in J. destruct (asub top q) as [c|]; [|discriminate J]. refine (IHf _ _ _ _ _ J). intro Q. congruence. }
  all: destruct (lojban m) eqn:L; inversion H; subst; [|exact E].
  all: assert (L1 : forall c, plain_call c = true -> tagged m [c])
         by (intros c C; destruct m; try discriminate L; apply followed_plain; cbn [forallb]; rewrite C; reflexivity).
  all: apply (tagged_app m [Open b n]); [apply L1; reflexivity|]; apply tagged_app; [exact E|apply L1; reflexivity].
Qed.

Theorem calls_followed translate adv unk P rb t cs : parse_tree t -> do_output translate adv unk P (add_bracketing_tags rb (expand_bahe_ui t)) = Ok cs -> followed cs.
Proof.
  intros T H. refine (out_followed _ _ _ P _ 2 _ SHOW_BOTH [] cs _ H). intros _. split; [apply parse_obs; exact T | apply parse_worded; exact T].
Qed.
