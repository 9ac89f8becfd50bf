(* The passes one after the other, in terms of their specifications. *)
From Coq Require Import String List NArith Bool Arith Lia.
From Verif Require Import Base TokData CmavoData TokModel ErasureSpec ErasureProofs Lex2Spec Lex2Proofs Lex2Proofs2 TidyProofs QuoteSpec QuoteProofs.
Import ListNotations.
Open Scope string_scope.
Open Scope list_scope.

Definition sound (n : node) : Prop := wf_cmavo n /\ unmarked n.
Lemma sound_dat d x : item d -> sound x -> sound (set_dat d x).
Proof.
  intros D (W & U). split; [unfold wf_cmavo; rewrite dat_set_dat; destruct d; cbn in D; tauto |].
  intros t E. rewrite dat_set_dat in E. subst d. exact D.
Qed.
Lemma sound_bahe b : forall a, Forall sound b -> Forall sound (bahe_loop a b).
Proof.
  assert (S : forall a x, sound x -> sound (set_bahe a x)).
  { intros a x (W & U). split; [unfold wf_cmavo; rewrite dat_set_bahe; exact W | intro t; rewrite dat_set_bahe; apply U]. }
  induction b as [|x0 b IH]; intros a F; cbn [bahe_loop]; [constructor |]. inversion F; subst.
  set (x := match a with Some z => set_bahe (Some z) x0 | None => x0 end).
  assert (Sx : sound x) by (subst x; destruct a; auto).
  destruct (cmtest x T_BAhE); [| constructor; auto]. destruct b as [|y b]; [constructor; auto |].
  destruct (cmtest y T_FAhO); [constructor; auto |]. apply IH. assumption.
Qed.
Lemma zo_showable n : forall l r, List.length l < n -> Forall lexer_token l -> handle_zo l = Ok r -> Forall showable r.
Proof.
  induction n as [|n IH]; intros l r L F E; [lia |]. destruct l as [|x l]; cbn in E.
  - injection E as <-. constructor.
  - inversion F as [|? ? Fx Fl]; subst. cbn in L. destruct (is_zo x).
    + destruct l as [|y l]; [discriminate |]. destruct (zo_text y); [| discriminate].
      inversion Fl; subst. cbn in L. destruct (handle_zo l) as [r'| | | |] eqn:Z; try discriminate.
      injection E as <-. constructor; [unfold showable; rewrite dat_set_dat; exact I |]. apply (IH l r'); auto. lia.
    + destruct (handle_zo l) as [r'| | | |] eqn:Z; try discriminate. injection E as <-. constructor; [| apply (IH l r'); auto; lia].
      unfold lexer_token in Fx. unfold showable. destruct (dat x); tauto.
Qed.

Section PIPE.
  Variables sa su : list node -> list node.
  Hypothesis Sa : sa_law sa.
  Hypothesis Su : su_law su.

  Lemma pipe l r w : Forall lexer_token l -> Forall wf_cmavo l ->
    (group_tokens l = Ok (r, w, false) <-> stages sa su l r w).
  Proof.
    intros T W.
    assert (F0 : Forall sound l).
    { apply Forall_forall. intros x I. rewrite Forall_forall in T, W. split; [auto |]. intros t E.
      specialize (T x I). unfold lexer_token in T. rewrite E in T. exact T. }
    assert (X : forall t2, handle_sa t2 = sa t2) by (intro; apply sa_law_unique; [apply handle_sa_law | exact Sa]).
    assert (Y : forall t2, handle_su t2 = su t2) by (intro; apply su_law_unique; [apply handle_su_law | exact Su]).
    assert (G : forall t1 t2 stack t4, handle_zo l = Ok t1 -> handle_lohu t1 = Ok t2 -> handle_si t2 = Ok (rev stack, w) ->
      handle_zei (su (sa (rev stack))) = Ok (t4, false) -> Forall sound t4).
    { intros t1 t2 stack t4 E1 E2 E3 E4.
      pose proof (keep_zo_n _ sound_dat (S (List.length l)) l t1 ltac:(lia) F0 E1) as F1.
      pose proof (keep_lohu _ sound_dat _ _ _ F1 E2) as F2.
      pose proof (keep_si _ sound_dat _ _ _ _ _ _ (Forall_nil _) F2 E3) as F3. rewrite <- X, <- Y in E4.
      eapply (keep_zei _ sound_dat); [constructor | | exact E4].
      eapply keep_su; [apply Nat.lt_succ_diag_r | constructor |]. apply keep_sa; [constructor | exact F3]. }
    split.
    - intro E. unfold group_tokens in E.
      destruct (handle_zo l) as [t1| | | |] eqn:E1; try discriminate. cbn [obind] in E.
      destruct (handle_lohu t1) as [t2| | | |] eqn:E2; try discriminate. cbn [obind] in E.
      unfold do_erasures in E. destruct (handle_si t2) as [(t3, w')| | | |] eqn:E3; try discriminate. cbn [obind] in E.
      rewrite X, Y in E. destruct (handle_zei (su (sa t3))) as [(t4, bad)| | | |] eqn:E4; try discriminate. cbn [obind] in E.
      destruct (handle_bu (handle_bahe t4)) as [t6| | | |] eqn:E5; try discriminate. cbn [obind] in E.
      destruct (handle_indicators t6) as [t7| | | |] eqn:E6; try discriminate. cbn [obind] in E. injection E as -> -> ->.
      pose proof E3 as E3'. rewrite handle_si_spec in E3'. destruct (si_spec t2) as [(stack & w'')|] eqn:Sp; [| discriminate].
      injection E3' as <- ->.
      pose proof (G t1 t2 stack t4 eq_refl E2 E3 E4) as F4.
      assert (F5 : Forall sound (handle_bahe t4)) by (apply sound_bahe; exact F4).
      assert (F6 : Forall sound t6) by (eapply (keep_bu _ sound_dat); [constructor | exact F5 | exact E5]).
      destruct (bu_spec_total (handle_bahe t4)) as (t6' & B).
      { intros y l' Ey Cy. rewrite Ey, handle_bu_abort in E5 by exact Cy. discriminate E5. }
      assert (t6' = t6).
      { pose proof (handle_bu_ok _ _ (Forall_impl _ (fun a H => proj2 H) F5) B) as Q. congruence. }
      subst t6'.
      pose proof E6 as E6'. unfold handle_indicators in E6'.
      destruct (pair_off_indicator_suffixes t6) as [t6'| | | |] eqn:P6; try discriminate E6'. cbn [obind] in E6'.
      apply (pair_off_ok t6 t6' (Forall_impl _ (fun a H => proj1 H) F6)) in P6.
      destruct (grouping t6') as (init & g & Eg & I & Gr).
      exists t1, t2, stack, t4, (handle_bahe t4), t6, init, g.
      split; [apply handle_zo_ok; exact E1 |].
      split; [apply handle_lohu_ok; [eapply zo_showable; [apply Nat.lt_succ_diag_r | exact T | exact E1] | exact E2] |].
      split; [exact Sp |]. split; [apply handle_zei_ok; exact E4 |]. split; [apply bahe_iff; reflexivity |].
      split; [exact B |]. split; [rewrite <- Eg; exact P6 |]. split; [exact I |]. split; [exact Gr |].
      rewrite Eg in E6'. rewrite ind_loop_init in E6' by (auto; discriminate). injection E6' as <-. reflexivity.
    - intros (t1 & t2 & stack & t4 & t5 & t6 & init & g & A1 & A2 & A3 & A4 & A5 & A6 & A7 & A8 & A9 & ->).
      apply handle_zo_ok in A1. pose proof (zo_showable _ _ _ (Nat.lt_succ_diag_r _) T A1) as Sh.
      apply (handle_lohu_ok _ _ Sh) in A2. assert (A3' : handle_si t2 = Ok (rev stack, w)) by (rewrite handle_si_spec, A3; reflexivity).
      apply handle_zei_ok in A4. pose proof (G _ _ _ _ A1 A2 A3' A4) as F4. apply bahe_iff in A5. subst t5.
      assert (F5 : Forall sound (handle_bahe t4)) by (apply sound_bahe; exact F4).
      apply (handle_bu_ok _ _ (Forall_impl _ (fun a H => proj2 H) F5)) in A6.
      assert (F6 : Forall sound t6) by (eapply (keep_bu _ sound_dat); [constructor | exact F5 | exact A6]).
      apply (pair_off_ok _ _ (Forall_impl _ (fun a H => proj1 H) F6)) in A7.
      unfold group_tokens. rewrite A1. cbn [obind]. rewrite A2. cbn [obind]. unfold do_erasures. rewrite A3'. cbn [obind].
      rewrite X, Y, A4. cbn [obind]. rewrite A6. cbn [obind]. unfold handle_indicators. rewrite A7. cbn [obind].
      rewrite ind_loop_init by (auto; discriminate). reflexivity.
  Qed.
End PIPE.
