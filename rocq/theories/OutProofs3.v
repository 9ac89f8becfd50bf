(* The glossed output of parse trees: words and brackets. *)
From Coq Require Import String Ascii List NArith ZArith Bool Arith Lia.
From Verif Require Import Base TokData CmavoData TokModel StreamModel TreeModel TreeOutModel ErasureProofs GrammarData GramModel GramSpec
  GramProofs PassProofs2 ConnectModel ConnectSpec ConnectProofs ConnectProofs2.
From Verif Require Import OutModel OutSpec OutProofs OutProofs2.
Import TransModel(tctx).
Import ListNotations.
Open Scope string_scope.
Open Scope list_scope.

Lemma bare_add rb t p s : bare (fst (add_bracketing rb p s t)) = t.
Proof. destruct (add_bracketing rb p s t) as [a n] eqn:E. exact (proj1 (numbers (fun _ => false) _ _ _ _ _ _ E)). Qed.
Lemma bare_tags rb t : bare (add_bracketing_tags rb t) = t.
Proof. apply bare_add. Qed.
Lemma asub_bare a : forall q s, asub a q = Some s -> subtree (bare a) q = Some (bare s).
Proof.
  induction a as [x b n|ty b n ch IH] using atree_induct; intros [|i q] s H; try (inversion H; reflexivity).
  cbn [asub] in H. cbn [bare subtree]. rewrite nth_error_map. destruct (nth_error ch i) as [c|] eqn:N; [|discriminate H].
  cbn [option_map]. rewrite Forall_forall in IH. exact (IH c (nth_error_In _ _ N) _ _ H).
Qed.
Lemma subtree_asub a : forall q t, subtree (bare a) q = Some t -> exists s, asub a q = Some s /\ bare s = t.
Proof.
  induction a as [x b n|ty b n ch IH] using atree_induct; intros [|i q] t H; try (inversion H; eexists; split; reflexivity).
  cbn [bare subtree] in H. rewrite nth_error_map in H. cbn [asub]. destruct (nth_error ch i) as [c|] eqn:N; [|discriminate H].
  cbn [option_map] in H. rewrite Forall_forall in IH. exact (IH c (nth_error_In _ _ N) _ _ H).
Qed.

Lemma asub_app a : forall q r, asub a (q ++ r) = match asub a q with Some s => asub s r | None => None end.
Proof.
  intros q. revert a. induction q as [|i q IH]; intros a r; [reflexivity|]. cbn [app asub]. destruct a as [|ty b n ch]; [reflexivity|].
  destruct (nth_error ch i); [apply IH|reflexivity].
Qed.

Lemma obs_of a : (forall q ty b n ch, asub a q = Some (ANT ty b n ch) -> ty = "OBSERVATIVE_SENTENCE" -> List.length ch = 1) -> obs a.
Proof.
  induction a as [x b n|ty b n ch IH] using atree_induct; intro H; [exact I|]. split; [exact (H [] ty b n ch eq_refl)|].
  assert (K : Forall obs ch).
  { rewrite Forall_forall in *. intros c IN. apply (IH c IN). intros q ty' b' n' ch' A. apply In_nth_error in IN. destruct IN as [i N].
    apply (H (i :: q) ty' b' n' ch'). cbn [asub]. rewrite N. exact A. }
  clear - K. induction K; cbn; auto.
Qed.

(* a node of a parse tree, as the grammar has it *)
Lemma node_parsed t q ty ch : parse_tree t -> subtree (expand_bahe_ui t) q = Some (NT ty ch) -> ty <> "AUGMENTED" -> parsed (NT ty ch).
Proof.
  intros T E A. destruct (parse_expand t T) as [P C]. destruct (expand_bahe_ui t) as [x|top tch]; [discriminate C|].
  apply String.eqb_eq in C. subst top. destruct (at_sound q _ _ _ P ltac:(discriminate) E) as [[_ S1]|[O|[tk W]]]; [exact S1 | |].
  - apply ornament_NT in O. tauto.
  - inversion W. congruence.
Qed.

Definition SN_all (ss : list sym) : bool := forallb (fun s => match s with SN _ => true | _ => false end) ss.
Lemma fitsx_nodes ss ch : fitsx ss ch -> SN_all ss = true -> List.length ch = List.length ss.
Proof.
  induction 1; cbn; intro H1; try discriminate H1; auto.
Qed.
Lemma obs_rule : forallb (fun ss => SN_all ss && Nat.eqb (List.length ss) 1) (alternatives "OBSERVATIVE_SENTENCE") = true.
Proof. vm_compute. reflexivity. Qed.

Lemma parse_obs rb t : parse_tree t -> obs (add_bracketing_tags rb (expand_bahe_ui t)).
Proof.
  intro T. apply obs_of. intros q ty b n ch A ->. apply asub_bare in A. rewrite bare_tags in A. cbn [bare] in A.
  pose proof (node_parsed t q _ _ T A ltac:(discriminate)) as PN. destruct (parsed_prod _ _ PN ltac:(discriminate)) as (ss & IS & F).
  apply (alts _ _ obs_rule) in IS. apply andb_true_iff in IS. destruct IS as [N1 N2]. apply Nat.eqb_eq in N2.
  apply fitsx_nodes in F; [|exact N1]. rewrite map_length in F. congruence.
Qed.

Section PARSED.
  Variable translate : string -> option string.
  Variable adv_translate : string -> Z -> tctx -> outcome string.
  Variable translate_unknown : string -> Z -> tctx -> outcome (option string).
  Variable P : props.
  Variable rb : path -> bool.
  Variable t : tree.
  Hypothesis PT : parse_tree t.
  Let top := add_bracketing_tags rb (expand_bahe_ui t).
  Let out := do_output translate adv_translate translate_unknown P top.
  Notation text := (fun e : path * node => written (p_elidable P (fst e)) (snd e)).

  Lemma out_skel cs : out = Ok cs -> skeleton cs = skel (p_elidable P) [] top.
  Proof.
    intro H. refine (out_skeleton _ _ _ P top 2 top SHOW_BOTH [] cs _ H). intros _. apply parse_obs. exact PT.
  Qed.

  Theorem out_words cs : out = Ok cs -> shown_words cs = map text (leaves [] (expand_bahe_ui t)).
  Proof.
    intro H. rewrite <- shown_skeleton, (out_skel cs H), skel_words. unfold top. rewrite bare_tags. reflexivity.
  Qed.

  Theorem out_nested cs : out = Ok cs -> nested cs.
  Proof. intro H. exact (nested_skeleton _ (skel_nested _ _ _) cs (out_skel cs H)). Qed.

  Theorem out_numbers cs : out = Ok cs -> opened cs = seq 1 (List.length (opened cs)).
  Proof.
    intro H. rewrite <- opened_skeleton, (out_skel cs H). unfold top, add_bracketing_tags.
    destruct (add_bracketing rb [] 0 (expand_bahe_ui t)) as [a n] eqn:E. cbn [fst].
    destruct (numbers (p_elidable P) _ _ _ _ _ _ E) as (_ & _ & O). rewrite O, seq_length. reflexivity.
  Qed.

  (* a bracket encloses the words of its node *)
  Theorem out_extent cs q s : out = Ok cs -> asub top q = Some s ->
    match s with
    | ANT _ b n _ => exists pre mid post L1 L2, cs = pre ++ Open b n :: mid ++ Close b n :: post /\
        nested mid /\
        leaves [] (expand_bahe_ui t) = L1 ++ leaves q (bare s) ++ L2 /\
        shown_words pre = map text L1 /\ shown_words mid = map text (leaves q (bare s)) /\ shown_words post = map text L2
    | ALeaf _ _ _ => True
    end.
  Proof.
    intros H A. destruct s as [x b n|ty b n ch]; [exact I|].
    destruct (skel_part (p_elidable P) top [] q _ A) as (A1 & B1 & L1 & L2 & E1 & E2 & E3 & E4). cbn [app] in E1, E2.
    pose proof (out_skel cs H) as K. rewrite E1, skel_nt in K. cbn [app] in K.
    destruct (skeleton_split _ _ _ _ K) as (pre & r & -> & S1 & S2). rewrite <- app_assoc in S2. cbn [app] in S2.
    destruct (skeleton_split _ _ _ _ S2) as (mid & post & -> & S3 & S4).
    exists pre, mid, post, L1, L2. split; [reflexivity|]. unfold top in E2 at 1. rewrite bare_tags in E2.
    assert (W := skel_words (p_elidable P) (ANT ty b n ch) q). rewrite skel_nt in W. cbn [shown_words flat_map app] in W.
    fold (shown_words (skels (p_elidable P) q 0 ch ++ [Close b n])) in W. rewrite shown_app in W. cbn [shown_words flat_map] in W. rewrite app_nil_r in W.
    split; [|split; [exact E2|]].
    - apply (nested_skeleton (skels (p_elidable P) q 0 ch)); [|exact S3]. clear. generalize 0. induction ch as [|c l IH]; intro i; cbn [skels]; [constructor|].
      apply nested_app; [apply skel_nested|apply IH].
    - rewrite <- (shown_skeleton pre), S1, E3. rewrite <- (shown_skeleton mid), S3, W. rewrite <- (shown_skeleton post), S4, E4. auto.
  Qed.

  Theorem out_labelled cs : out = Ok cs -> labelled cs.
  Proof. intro H. exact (out_labels _ _ _ P top 2 top SHOW_BOTH [] cs H). Qed.
End PARSED.
