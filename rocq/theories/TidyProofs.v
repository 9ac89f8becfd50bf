(* The tokens the parser receives: emphasis words never carry indicators. *)
From Coq Require Import String List NArith Bool Arith Lia.
From Verif Require Import Base TokData CmavoData TokModel ErasureSpec Lex2Spec TreeModel TreeOutModel TreeOutSpec.
Import ListNotations.
Open Scope list_scope.

(* what the passes make of a word: never a plain cmavo again *)
Definition item (d : ndata) : Prop := match d with N_CMAVO _ _ _ | N_MARKER _ => False | _ => True end.
Local Hint Extern 1 (item _) => exact I : core.
Section KEEP.
  Variable P : node -> Prop.
  Hypothesis Pdat : forall d x, item d -> P x -> P (set_dat d x).

  Lemma keep_zo_n n : forall l r, List.length l < n -> Forall P l -> handle_zo l = Ok r -> Forall P r.
  Proof.
    induction n as [|n IH]; intros l r L F E; [lia |]. destruct l as [|x l]; cbn in E.
    - injection E as <-. constructor.
    - inversion F as [|? ? Fx Fl]; subst. cbn in L. destruct (is_zo x).
      + destruct l as [|y l]; [discriminate |]. destruct (zo_text y); [| discriminate].
        inversion Fl; subst. cbn in L. destruct (handle_zo l) as [r'| | | |] eqn:Z; try discriminate.
        injection E as <-. constructor; [auto |]. apply (IH l r'); auto. lia.
      + destruct (handle_zo l) as [r'| | | |] eqn:Z; try discriminate. injection E as <-. constructor; [auto |]. apply (IH l r'); auto. lia.
  Qed.

  Lemma split_lehu_keep l q r : split_lehu l = Some (q, r) -> Forall P l -> Forall P r.
  Proof.
    revert q r. induction l as [|x l IH]; intros q r E F; cbn in E; [discriminate |]. inversion F; subst.
    destruct (cmtest x T_LEhU); [injection E as <- <-; assumption |].
    destruct (split_lehu l) as [(a, b)|]; [| discriminate]. injection E as <- <-. eapply IH; eauto.
  Qed.
  Lemma keep_lohu f : forall l r, Forall P l -> lohu_loop f l = Ok r -> Forall P r.
  Proof.
    induction f as [|f IH]; intros l r F E; [discriminate |]. cbn [lohu_loop] in E. destruct l as [|x l].
    - injection E as <-. constructor.
    - inversion F; subst. destruct (cmtest x T_LOhU).
      + destruct (split_lehu l) as [([|q0 q], b)|] eqn:S; try discriminate.
        destruct (build_string_from_nodes (q0 :: q)) as [s| | | |]; try discriminate. cbn [obind] in E.
        destruct (lohu_loop f b) as [r'| | | |] eqn:Z; try discriminate. injection E as <-.
        constructor; [auto |]. eapply IH; [| exact Z]. eapply split_lehu_keep; eassumption.
      + destruct (lohu_loop f l) as [r'| | | |] eqn:Z; try discriminate. injection E as <-. constructor; eauto.
  Qed.

  Lemma eat_si_keep n : forall l k r, eat_si n l = (k, r) -> Forall P l -> Forall P r.
  Proof.
    induction n as [|n IH]; intros l k r E F; cbn in E; [injection E as <- <-; exact F |].
    destruct l as [|x l]; [injection E as <- <-; exact F |]. destruct (cmtest x T_SI); [| injection E as <- <-; exact F].
    inversion F; subst. eapply IH; eauto.
  Qed.
  Lemma keep_si f : forall pre post m r w, Forall P pre -> Forall P post -> si_loop f pre post m = Ok (r, w) -> Forall P r.
  Proof.
    induction f as [|f IH]; intros pre post m r w F G E; [discriminate |]. cbn [si_loop] in E. destruct post as [|x post].
    - injection E as <- <-. apply Forall_rev, F.
    - inversion G; subst. destruct (cmtest x T_SI).
      + destruct pre as [|y pre]; [eapply IH; [| | exact E]; auto |].
        inversion F; subst. destruct (si_require y); [| discriminate].
        destruct (eat_si (n - 1) post) as (k, z) eqn:S. pose proof (eat_si_keep _ _ _ _ S H2).
        destruct k; eapply IH; [| | exact E | | | exact E]; auto.
      + eapply IH; [| | exact E]; auto.
  Qed.
  Lemma sa_back_keep nt pre : Forall P pre -> Forall P (sa_back nt pre).
  Proof. induction 1; cbn; [constructor |]. destruct (sa_match x nt); auto. Qed.
  Lemma keep_sa post : forall pre, Forall P pre -> Forall P post -> Forall P (sa_loop pre post).
  Proof.
    induction post as [|x post IH]; intros pre F G; cbn [sa_loop]; [apply Forall_rev, F |]. inversion G; subst.
    destruct post as [|nt post]; [apply Forall_rev; auto |].
    destruct (cmtest x T_SA); apply IH; auto. apply sa_back_keep, F.
  Qed.
  Lemma su_back_keep pre : Forall P pre -> Forall P (su_back pre).
  Proof. induction 1; cbn; [constructor |]. destruct (su_boundary x); auto. Qed.
  Lemma keep_su n : forall post pre, List.length post < n -> Forall P pre -> Forall P post -> Forall P (su_loop pre post).
  Proof.
    induction n as [|n IH]; intros post pre L F G; [lia |]. destruct post as [|x post]; cbn [su_loop]; [apply Forall_rev, F |].
    inversion G; subst. cbn in L. destruct (cmtest x T_SU).
    - destruct post as [|nt ntt]; [apply Forall_rev, su_back_keep, F |].
      destruct (cmtest nt T_SU); [| apply IH; auto; [lia | apply su_back_keep, F]].
      inversion H2; subst. apply IH; auto. cbn in L. lia.
    - apply IH; auto. lia.
  Qed.

  Lemma zei_operands_keep n : forall l ops r, List.length l < n -> zei_operands l = Some (ops, r) -> Forall P l -> Forall P r.
  Proof.
    induction n as [|n IH]; intros l ops r L E F; [lia |]. destruct l as [|y l]; cbn in E; [discriminate |].
    inversion F; subst. destruct l as [|z1 l]; [injection E as <- <-; constructor |]. cbn in L.
    destruct (is_zei z1); [| injection E as <- <-; assumption].
    destruct (zei_operands l) as [(a, b)|] eqn:Z; [| discriminate]. injection E as <- <-.
    inversion H2; subst. eapply (IH l); eauto. lia.
  Qed.
  Lemma keep_zei f : forall fst pre post bad r b, Forall P pre -> Forall P post -> zei_loop f fst pre post bad = Ok (r, b) -> Forall P r.
  Proof.
    induction f as [|f IH]; intros fi pre post bad r b F G E; [discriminate |]. cbn [zei_loop] in E. destruct post as [|x post].
    - injection E as <- <-. apply Forall_rev, F.
    - inversion G; subst. destruct (is_zei x); [| eapply IH; [| | exact E]; auto].
      destruct fi; [eapply IH; [| | exact E]; auto |].
      destruct (zei_operands post) as [(ops, rgt)|] eqn:Z; [| eapply IH; [| | exact E]; auto].
      destruct pre as [|l lft]; [discriminate |]. inversion F; subst.
      destruct (strings_of (l :: ops)) as [c| | | |]; try discriminate. cbn [obind] in E.
      match type of E with obind ?X _ = _ => destruct X; try discriminate end. cbn [obind] in E.
      match type of E with obind ?X _ = _ => destruct X; try discriminate end. cbn [obind] in E.
      eapply IH; [| | exact E]; [auto |]. eapply zei_operands_keep; [apply Nat.lt_succ_diag_r | exact Z | assumption].
  Qed.
  Lemma keep_bu post : forall pre r, Forall P pre -> Forall P post -> bu_loop pre post = Ok r -> Forall P r.
  Proof.
    induction post as [|x post IH]; intros pre r F G E; cbn [bu_loop] in E; [injection E as <-; apply Forall_rev, F |].
    inversion G; subst. destruct (cmtest x T_BU); [| eapply IH; [| | exact E]; auto].
    destruct pre as [|y pre]; [discriminate |]. inversion F; subst.
    destruct (bu_word y) as [w| | | |]; try discriminate. cbn [obind] in E. eapply IH; [| | exact E]; auto.
  Qed.

  Hypothesis Pneg : forall g x, P x -> P (set_neg g x).
  Hypothesis Pcai : forall k x, P x -> P (set_cai k x).
  Lemma keep_pair f : forall post r, Forall P post -> pair_off f post = Ok r -> Forall P r.
  Proof.
    induction f as [|f IH]; intros post r F E; [discriminate |]. cbn [pair_off] in E. destruct post as [|x y].
    - injection E as <-. constructor.
    - inversion F as [|? ? Fx Fy]; subst.
      assert (K : forall x' z, P x' -> Forall P z -> omap (cons x') (pair_off f z) = Ok r -> Forall P r).
      { intros x' z X Z E'. destruct (pair_off f z) as [r'| | | |] eqn:Q; try discriminate. injection E' as <-.
        constructor; [exact X |]. eapply IH; eassumption. }
      destruct (is_indicator_cmavo x); [| eapply K; eassumption].
      assert (X1 : exists x1 z, match y with y0 :: y' => if cmtest y0 T_NAI then (set_neg true x, y') else (x, y) | [] => (x, y) end = (x1, z)
                   /\ P x1 /\ Forall P z).
      { destruct y as [|y0 y']; [eauto 6 |]. inversion Fy; subst. destruct (cmtest y0 T_NAI); eauto 6. }
      destruct X1 as (x1 & z & E1 & Px & Pz). rewrite E1 in E. destruct z as [|z0 w]; [exact (K _ _ Px Pz E) |].
      pose proof Pz as Pz'. inversion Pz'; subst. destruct (cmtest z0 T_CAI); [| exact (K _ _ Px Pz E)].
      destruct (cai_of z0); [| discriminate]. destruct w as [|w0 v]; [eapply K; [| | exact E]; auto |].
      match goal with H : Forall P (w0 :: v) |- _ => inversion H; subst end.
      destruct (cmtest w0 T_NAI); (eapply K; [| | exact E]; auto).
  Qed.

  Hypothesis Pui : forall u x, Forall P u -> P x -> P (set_ui u x).
  Lemma span_keep l a b : span_indicators l = (a, b) -> Forall P l -> Forall P a /\ Forall P b.
  Proof.
    revert a b. induction l as [|x l IH]; intros a b E F; cbn in E; [injection E as <- <-; auto |]. inversion F; subst.
    destruct (is_indicator_cmavo x); [| injection E as <- <-; auto].
    destruct (span_indicators l) as (a', b'). injection E as <- <-. destruct (IH _ _ eq_refl H2). auto.
  Qed.
  Lemma keep_ind f : forall st pre post r, Forall P pre -> Forall P post -> ind_loop f st pre post = Ok r -> Forall P r.
  Proof.
    induction f as [|f IH]; intros st pre post r F G E; [discriminate |]. cbn [ind_loop] in E. destruct post as [|x post].
    - injection E as <-. apply Forall_rev, F.
    - inversion G; subst. destruct st; try (eapply IH; [| | exact E]; auto; fail).
      destruct (is_indicator_cmavo x) eqn:EI; [| eapply IH; [| | exact E]; auto].
      destruct pre as [|t pre]; [discriminate |]. inversion F; subst.
      destruct (span_indicators (x :: post)) as (a, b) eqn:S. destruct (span_keep _ _ _ S G).
      eapply IH; [| | exact E]; auto.
  Qed.
End KEEP.

Lemma tidy_bahe post : Forall (fun n => bahe n = None /\ ui n = []) post ->
  forall att, (forall a, att = Some a -> tidy a /\ ui a = []) -> Forall tidy (bahe_loop att post).
Proof.
  induction 1 as [|x0 post (B & U) F IH]; intros att A; cbn [bahe_loop]; [constructor |].
  set (x := match att with Some a => set_bahe (Some a) x0 | None => x0 end).
  assert (Tx : tidy x /\ ui x = []).
  { destruct x0 as [d l c b g k u]. cbn in B, U. subst. destruct att as [a|]; cbn in x; subst x; (split; [constructor; cbn; [| constructor] | reflexivity]).
    - intros z E. injection E as <-. destruct (A a eq_refl). auto.
    - intros z E. discriminate. }
  destruct Tx as (Tx & Ux).
  assert (R : Forall tidy (bahe_loop None post)) by (apply IH; intros a E; discriminate).
  destruct (cmtest x T_BAhE); [| constructor; assumption].
  destruct post as [|y post]; [constructor; [exact Tx | constructor] |].
  destruct (cmtest y T_FAhO); [constructor; assumption |]. apply IH. intros a E. injection E as <-. auto.
Qed.

Lemma tidy_set_dat d x : tidy x -> tidy (set_dat d x).
Proof. intro T. inversion T as [n A B E]; subst. destruct x. constructor; [exact A | exact B]. Qed.
Lemma tidy_set_neg g x : tidy x -> tidy (set_neg g x).
Proof. intro T. inversion T as [n A B E]; subst. destruct x. constructor; [exact A | exact B]. Qed.
Lemma tidy_set_cai k x : tidy x -> tidy (set_cai k x).
Proof. intro T. inversion T as [n A B E]; subst. destruct x. constructor; [exact A | exact B]. Qed.
Lemma tidy_set_ui u x : Forall tidy u -> tidy x -> tidy (set_ui u x).
Proof. intros U T. inversion T as [n A B E]; subst. destruct x. constructor; [exact A | exact U]. Qed.

Lemma group_tidy l r m b : Forall (fun n => bahe n = None /\ ui n = []) l -> group_tokens l = Ok (r, m, b) -> Forall tidy r.
Proof.
  intros F E. unfold group_tokens in E.
  assert (K : forall d x, item d -> (bahe x = None /\ ui x = []) -> (bahe (set_dat d x) = None /\ ui (set_dat d x) = [])).
  { intros d [] _ (B & U). split; assumption. }
  destruct (handle_zo l) as [t1| | | |] eqn:E1; try discriminate. cbn [obind] in E.
  pose proof (keep_zo_n _ K (S (List.length l)) l t1 ltac:(lia) F E1) as F1.
  destruct (handle_lohu t1) as [t2| | | |] eqn:E2; try discriminate. cbn [obind] in E.
  pose proof (keep_lohu _ K _ _ _ F1 E2) as F2. unfold do_erasures in E.
  destruct (handle_si t2) as [(t3, w)| | | |] eqn:E3; try discriminate. cbn [obind] in E.
  pose proof (keep_si _ K _ _ _ _ _ _ (Forall_nil _) F2 E3) as F3.
  destruct (handle_zei (handle_su (handle_sa t3))) as [(t4, bad)| | | |] eqn:E4; try discriminate. cbn [obind] in E.
  assert (F4 : Forall (fun n => bahe n = None /\ ui n = []) t4).
  { eapply (keep_zei _ K); [constructor | | exact E4].
    eapply keep_su; [apply Nat.lt_succ_diag_r | constructor |]. apply keep_sa; [constructor | exact F3]. }
  destruct (handle_bu (handle_bahe t4)) as [t5| | | |] eqn:E5; try discriminate. cbn [obind] in E.
  assert (F5 : Forall tidy t5).
  { eapply (keep_bu _ (fun d x _ => tidy_set_dat d x)); [constructor | | exact E5]. apply tidy_bahe; [exact F4 | intros a A; discriminate]. }
  unfold handle_indicators in E. destruct (pair_off_indicator_suffixes t5) as [t6| | | |] eqn:E6; try discriminate. cbn [obind] in E.
  pose proof (keep_pair _ tidy_set_neg tidy_set_cai _ _ _ F5 E6) as F6.
  destruct (ind_loop (S (List.length t6)) XX_BEGIN [] t6) as [t7| | | |] eqn:E7; try discriminate. cbn [obind] in E.
  injection E as <- <- <-. exact (keep_ind _ tidy_set_ui _ _ _ _ _ (Forall_nil _) F6 E7).
Qed.
