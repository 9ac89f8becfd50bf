From Coq Require Import String List NArith Bool Arith Lia.
From Verif Require Import Base TokData TokModel ErasureProofs DfaModel DfaSpec NfaData CategModel CategSpec.
From Verif Require Import CategProofs CategProofs2 CategProofs3 CategProofs4 CategProofs5 AheadSpec AheadProofs AheadProofs2.
Import ListNotations.
Open Scope N_scope.
Open Scope list_scope.

Lemma deco_quiet ts hi g p x l l' : pass_of ts hi g -> quiet hi g (hd_error p) x = true ->
  deco ts (if counts x then x :: p else p) l l' -> deco ts p (x :: l) (x :: l').
Proof.
  intros P Q D. destruct (counts x) eqn:C; [|apply d_skip; assumption]. apply d_not; [exact C| |exact D].
  intros t I St. rewrite (P _ _ _ _ I St) in Q. discriminate.
Qed.

Lemma pcore_step x pre : pcore (x :: pre) = if counts (item_of x) then item_of x :: pcore pre else pcore pre.
Proof. unfold pcore. rewrite items_cons. destruct (counts (item_of x)) eqn:C; [apply core_cons|apply core_skip]; exact C. Qed.

Lemma ibo_of : pass_of [T_PRIVATE_I_BO] (W T_I) false.
Proof.
  intros t p i l [<-|[]] S. cbn [stands] in S. apply i_bo_head in S. subst i. reflexivity.
Qed.
Lemma okhead_i : okhead (W T_I) false.
Proof. repeat split; try reflexivity; try discriminate. right. split; discriminate. Qed.

Section In_list.
Variable src : source.
Variable L : list node.
Hypothesis B : bracketed src L.
Variable ts : list tok.
Hypothesis Pl : placed ts [] (items L).

Lemma ibo_deco : forall fuel pre pre0 post out, L = rev pre0 ++ post -> ibo_pass fuel pre post = Ok out ->
  exists post', out = rev pre ++ post' /\ deco [T_PRIVATE_I_BO] (pcore pre0) (items post) (items post').
Proof.
  induction fuel as [|fuel IH]; intros pre pre0 post out E H; cbn [ibo_pass] in H; [discriminate|]. destruct post as [|x y].
  { injection H as <-. exists []. rewrite app_nil_r. split; [reflexivity|constructor]. }
  destruct (cmtest x T_I) eqn:Ex.
  - apply cmtest_item in Ex. assert (Cx : counts (item_of x) = true) by (rewrite Ex; reflexivity).
    assert (Ey : L = rev (x :: pre0) ++ y) by (rewrite rev_mid; exact E).
    assert (Ai : after_i_tense (x :: pre0)) by (left; rewrite pcore_cons, Ex by exact Cx; reflexivity).
    destruct (straddle_jek y) as [s1| | | |] eqn:E1; cbn [obind] in H; try discriminate.
    destruct (match s1 with Some _ => Ok s1 | None => straddle_joik y end) as [s2| | | |] eqn:E2; cbn [obind] in H; try discriminate.
    assert (LS := link_step src L B ts Pl _ _ _ _ Ey Ai E1 E2).
    destruct (match s2 with Some p => p | None => ([], y) end) as [a b] eqn:Ea.
    assert (Ya : y = a ++ b).
    { destruct s2 as [[a' b']|]; injection Ea as <- <-; [apply LS|reflexivity]. }
    assert (Ca : calm (W T_I) false (pcore (x :: pre0)) (items a) = true).
    { destruct s2 as [[a' b']|]; injection Ea as <- <-; [apply LS; exact okhead_i|reflexivity]. }
    destruct (look b) as [[[r c] d]| | | |] eqn:El; cbn [obind] in H; try discriminate.
    assert (Eb : L = rev (rev a ++ x :: pre0) ++ b) by (rewrite rev_app_distr, rev_involutive, <- app_assoc, <- Ya; exact Ey).
    destruct (look_spec src L B ts Pl _ _ _ _ _ _ Eb El) as (Ebd & R & Cc). specialize (R T_BO (or_introl eq_refl)). cbn iota in R.
    assert (St : r = FOUND_BO <-> stands T_PRIVATE_I_BO (hd_error (pcore pre0)) (item_of x :: core (items y))).
    { rewrite R, Ex. cbn [stands]. destruct s2 as [[a' b']|]; injection Ea as <- <-.
      - destruct LS as (_ & Lk & _). split.
        + intro Ld. exists (core (items y)). eauto.
        + intros (q & Eq & Hq). injection Eq as <-. destruct Hq as [Hq|(r' & Lr & Hq)].
          * exfalso. apply link_head in Lk. destruct Lk as (q & Lk), Hq as [(q' & Hq)|(q' & Hq)].
            -- destruct Lk; congruence.
            -- apply tags_head in Hq. destruct Hq as (q2 & Hq). destruct Lk; congruence.
          * rewrite <- (link_det _ _ _ Lr Lk). exact Hq.
      - split.
        + intro Ld. exists (core (items y)). eauto.
        + intros (q & Eq & Hq). injection Eq as <-. destruct Hq as [Hq|(r' & Lr & Hq)]; [exact Hq|]. destruct (LS _ Lr). }
    apply (IH _ (rev c ++ rev a ++ x :: pre0)) in H.
    2:{ rewrite rev_jump, <- Ebd, <- Ya. exact E. }
    destruct H as (d' & -> & D).
    assert (D' : deco [T_PRIVATE_I_BO] (pcore (x :: pre0)) (items y) (items (a ++ c ++ d'))).
    { rewrite Ya, Ebd, !items_app. apply (deco_calm _ _ _ ibo_of); [exact Ca|]. rewrite <- pcore_rev_app.
      apply (deco_calm _ _ _ ibo_of); [apply Cc; exact okhead_i|]. rewrite <- pcore_rev_app. exact D. }
    rewrite pcore_cons in D' by exact Cx.
    exists (match r with FOUND_BO => [marker T_PRIVATE_I_BO (x :: y)] | _ => [] end ++ x :: a ++ c ++ d'). split.
    + rewrite rev_jump. destruct r; cbn [rev app]; rewrite <- ?app_assoc; reflexivity.
    + rewrite !items_cons, items_app, items_cons.
      destruct r; cbn [items map app]; [apply d_put; [exact Cx|left; reflexivity|apply St; reflexivity|exact D']|..];
        (apply d_not; [exact Cx|intros t [<-|[]] K; apply St in K; discriminate|exact D']).
  - apply (IH _ (x :: pre0)) in H; [|rewrite rev_mid; exact E]. destruct H as (y' & -> & D). exists (x :: y'). split; [apply rev_mid|].
    rewrite !items_cons. eapply deco_quiet; [exact ibo_of| |rewrite pcore_step in D; exact D].
    unfold quiet. destruct (item_eqb (item_of x) (W T_I)) eqn:K; [|reflexivity]. apply item_eqb_eq, cmtest_item in K. congruence.
Qed.

(* ---- the passes for bo and ke ---- *)
Definition guarded (p : option item) : bool :=
  match p with Some j => item_eqb j (W T_I) || item_eqb j (M T_PRIVATE_END_TENSE) | None => false end.

Lemma guard_raw pre0 x post : L = rev pre0 ++ x :: post -> item_of x = M T_PRIVATE_START_JEK \/ item_of x = M T_PRIVATE_START_JOIK ->
  match pre0 with y :: _ => cmtest y T_I || mkrtest y T_PRIVATE_END_TENSE | [] => false end = guarded (hd_error (pcore pre0)).
Proof.
  intros E Hx. destruct pre0 as [|y pre1]; [reflexivity|]. destruct (counts (item_of y)) eqn:C.
  - rewrite pcore_cons by exact C. cbn [hd_error guarded]. f_equal; apply eq_iff_eq_true; rewrite item_eqb_eq;
      [apply cmtest_item|apply mkrtest_item].
  - rewrite pcore_step, C. destruct (item_of y) as [t| |t|] eqn:Ey; cbn in C; try discriminate.
    assert (N1 : cmtest y T_I = false) by (apply (cm_false _ _ _ Ey); discriminate).
    assert (N2 : mkrtest y T_PRIVATE_END_TENSE = false).
    { destruct (mkrtest y T_PRIVATE_END_TENSE) eqn:K; [|reflexivity]. apply mkrtest_item in K. rewrite K in Ey. injection Ey as <-. discriminate. }
    rewrite N1, N2. cbn [orb]. rewrite rev_mid in E. destruct (single_at L ts Pl pre1 y (x :: post) t E Ey C) as (_ & S & _).
    rewrite items_cons, core_cons in S by (destruct Hx as [-> | ->]; reflexivity).
    destruct (guarded (hd_error (pcore pre1))) eqn:G; [|reflexivity]. exfalso. revert S. apply no_stand_link; [exact Hx|].
    unfold guarded in G. destruct (hd_error (pcore pre1)) as [j|]; [|discriminate]. apply orb_true_iff in G.
    destruct G as [G|G]; apply item_eqb_eq in G; subst j; auto.
Qed.

Section Kebo.
Variables m bo ke : tok.
Variable straddle : list node -> outcome (option (list node * list node)).
Variable guard : bool.
Hypothesis Bm : bracket m = true.
Hypothesis Gm : guard = true -> m = T_PRIVATE_START_JEK \/ m = T_PRIVATE_START_JOIK.
Hypothesis Ok_m : okhead (M m) guard.
Hypothesis Pm : pass_of [bo; ke] (M m) guard.
Hypothesis Hs : forall pre0 x post a b, L = rev pre0 ++ x :: post -> item_of x = M m -> straddle (x :: post) = Ok (Some (a, b)) ->
  exists a', a = x :: a' /\ post = a' ++ b /\ calm (M m) guard (pcore (x :: pre0)) (items a') = true /\
    forall p w, w = T_BO \/ w = T_KE -> guard && guarded p = false ->
      (stands (match w with T_BO => bo | _ => ke end) p (M m :: core (items post)) <-> leads w (core (items b))).

Lemma kebo_deco : forall fuel pre pre0 post out, L = rev pre0 ++ post -> hd_error pre = hd_error pre0 ->
  kebo_pass fuel m bo ke straddle guard pre post = Ok out ->
  exists post', out = rev pre ++ post' /\ deco [bo; ke] (pcore pre0) (items post) (items post').
Proof.
  induction fuel as [|fuel IH]; intros pre pre0 post out E Eh H; cbn [kebo_pass] in H; [discriminate|]. destruct post as [|x y].
  { injection H as <-. exists []. rewrite app_nil_r. split; [reflexivity|constructor]. }
  assert (Eg : match pre with y :: _ => cmtest y T_I || mkrtest y T_PRIVATE_END_TENSE | [] => false end
             = match pre0 with y :: _ => cmtest y T_I || mkrtest y T_PRIVATE_END_TENSE | [] => false end).
  { destruct pre, pre0; cbn in Eh; try discriminate; [reflexivity|]. injection Eh as ->. reflexivity. }
  rewrite Eg in H. clear Eg.
  assert (Er : mkrtest x m = true -> guard && match pre0 with y :: _ => cmtest y T_I || mkrtest y T_PRIVATE_END_TENSE | [] => false end
             = guard && guarded (hd_error (pcore pre0))).
  { intro Ex. apply mkrtest_item in Ex. destruct guard eqn:G; [|reflexivity]. cbn [andb]. apply (guard_raw _ _ _ E). rewrite Ex.
    destruct (Gm eq_refl) as [-> | ->]; auto. }
  destruct (mkrtest x m) eqn:Ex.
  2:{ cbn [andb] in H. apply (IH _ (x :: pre0)) in H; [|rewrite rev_mid; exact E|reflexivity].
      destruct H as (y' & -> & D). exists (x :: y'). split; [apply rev_mid|].
      rewrite !items_cons. eapply deco_quiet; [exact Pm| |rewrite pcore_step in D; exact D].
      unfold quiet. destruct (item_eqb (item_of x) (M m)) eqn:K; [|reflexivity]. apply item_eqb_eq, mkrtest_item in K. congruence. }
  rewrite (Er eq_refl) in H. clear Er. apply mkrtest_item in Ex. assert (Cx : counts (item_of x) = true) by (rewrite Ex; exact Bm).
  cbn [andb] in H. destruct (guard && guarded (hd_error (pcore pre0))) eqn:G; cbn [negb] in H.
  { apply (IH _ (x :: pre0)) in H; [|rewrite rev_mid; exact E|reflexivity].
    destruct H as (y' & -> & D). exists (x :: y'). split; [apply rev_mid|].
    rewrite !items_cons. eapply deco_quiet; [exact Pm| |rewrite pcore_step in D; exact D].
    unfold quiet. unfold guarded in G. rewrite G. apply orb_true_r. }
  destruct (straddle (x :: y)) as [[[a b]|]| | | |] eqn:Es; cbn [obind] in H; try discriminate.
  destruct (Hs _ _ _ _ _ E Ex Es) as (a' & -> & Ya & Ca & St).
  destruct (look b) as [[[r c] d]| | | |] eqn:El; cbn [obind] in H; try discriminate.
  assert (Eb : L = rev (rev a' ++ x :: pre0) ++ b) by (rewrite rev_app_distr, rev_involutive, <- app_assoc, <- Ya, rev_mid; exact E).
  destruct (look_spec src L B ts Pl _ _ _ _ _ _ Eb El) as (Ebd & R & Cc).
  assert (RB := R T_BO (or_introl eq_refl)). assert (RK := R T_KE (or_intror eq_refl)). cbn iota in RB, RK.
  rewrite <- (St _ T_BO (or_introl eq_refl) G) in RB. rewrite <- (St _ T_KE (or_intror eq_refl) G) in RK. cbn iota in RB, RK.
  rewrite <- Ex in RB, RK.
  assert (Ej : forall q, rev (rev c ++ rev (x :: a') ++ q) ++ d = rev q ++ x :: y).
  { intro q. rewrite !rev_app_distr, !rev_involutive, <- !app_assoc. cbn [app]. rewrite <- Ebd, <- Ya. reflexivity. }
  apply (IH _ (rev c ++ rev (x :: a') ++ pre0)) in H.
  2:{ rewrite Ej. exact E. }
  2:{ destruct (rev c) as [|z ?]; [|reflexivity]. cbn [app rev]. destruct (rev a') as [|z ?]; reflexivity. }
  destruct H as (d' & -> & D).
  assert (D' : deco [bo; ke] (pcore (x :: pre0)) (items y) (items (a' ++ c ++ d'))).
  { rewrite Ya, Ebd, !items_app. apply (deco_calm _ _ _ Pm); [exact Ca|]. rewrite <- pcore_rev_app.
    apply (deco_calm _ _ _ Pm); [apply Cc; exact Ok_m|]. rewrite <- pcore_rev_app. cbn [rev] in D. rewrite <- app_assoc in D. exact D. }
  rewrite pcore_cons in D' by exact Cx.
  exists (match r with FOUND_BO => [marker bo (x :: y)] | FOUND_KE => [marker ke (x :: y)] | FOUND_OTHER => [] end ++ x :: a' ++ c ++ d'). split.
  - rewrite !rev_app_distr, !rev_involutive. destruct r; cbn [rev app]; rewrite <- ?app_assoc; reflexivity.
  - rewrite !items_cons, items_app, items_cons.
    destruct r; cbn [items map app];
      [apply d_put; [exact Cx|left; reflexivity|apply RB; reflexivity|exact D']
      |apply d_put; [exact Cx|right; left; reflexivity|apply RK; reflexivity|exact D']|].
    apply d_not; [exact Cx| |exact D']. intros t [<-|[<-|[]]] K; [apply RB in K|apply RK in K]; discriminate.
Qed.
End Kebo.
End In_list.
