From Coq Require Import String List NArith Bool Arith Lia.
From Verif Require Import Base TokData TokModel ErasureProofs DfaModel DfaSpec NfaData CategModel CategSpec.
From Verif Require Import CategProofs CategProofs2 CategProofs3.
Import ListNotations.
Open Scope N_scope.
Open Scope list_scope.

Lemma items_cons x l : items (x :: l) = item_of x :: items l.
Proof. reflexivity. Qed.

(* ---------------------------------------------------------------- *)
(* scans for a marker find it *)

Lemma seek_some t l : In (M t) (items l) -> exists a m b, seek t l = Some (a ++ [m], b) /\ l = a ++ m :: b /\ item_of m = M t.
Proof.
  induction l as [|y l IH]; [contradiction|]. cbn [items map seek]. intro H. destruct (mkrtest y t) eqn:E.
  - exists [], y, l. apply mkrtest_item in E. auto.
  - destruct H as [H|H]; [apply mkrtest_item in H; congruence|]. destruct (IH H) as (a & m & b & E1 & -> & E2).
    rewrite E1. exists (y :: a), m, b. auto.
Qed.

(* the first item of a construct lies before any of its last items *)
Lemma end_has_start K L pre e post : Q K (items L) [] -> L = rev pre ++ e :: post ->
  a_sel K (item_of e) = true -> a_hd K (item_of e) = false ->
  exists s, a_hd K s = true /\ In s (items pre).
Proof.
  intros H -> Se He. rewrite items_app, items_cons in H.
  destruct (H _ _ _ eq_refl Se) as (u & g1 & g2 & v & E1 & E2 & O). apply a_shape in O.
  destruct O as (s & r & f & E & Hs & _). destruct g1 as [|s' g1].
  - cbn in E. injection E as E _. congruence.
  - cbn in E. injection E as -> _. exists s. split; [exact Hs|]. apply in_rev. rewrite <- items_rev, E1. apply in_or_app. right. left. reflexivity.
Qed.

(* the last item of a construct lies after any of its first items *)
Lemma start_has_end K L pre s post : Q K (items L) [] -> L = rev pre ++ s :: post ->
  a_sel K (item_of s) = true -> a_fin K (item_of s) = false ->
  exists e, a_fin K e = true /\ In e (items post).
Proof.
  intros H -> Ss Fs. rewrite items_app, items_cons in H.
  destruct (H _ _ _ eq_refl Ss) as (u & g1 & g2 & v & E1 & E2 & O). apply a_shape in O.
  destruct O as (h & r & f & E & _ & _ & Hf).
  destruct g2 as [|i g2] using rev_ind.
  - change (h :: r ++ [f]) with ((h :: r) ++ [f]) in E. apply app_inj_tail in E. destruct E as [_ E]. congruence.
  - change (h :: r ++ [f]) with ((h :: r) ++ [f]) in E.
    change (g1 ++ item_of s :: g2 ++ [i]) with (g1 ++ (item_of s :: g2) ++ [i]) in E. rewrite app_assoc in E.
    apply app_inj_tail in E. destruct E as [_ ->]. exists f. split; [exact Hf|]. rewrite E2.
    apply in_or_app. left. apply in_or_app. right. left. reflexivity.
Qed.

(* ---------------------------------------------------------------- *)
(* gek *)

Definition bracketed (src : source) (L : list node) : Prop :=
  Q (Ktense src) (items L) [] /\ Q Kjek (items L) [] /\ Q Kjoik (items L) [].

Lemma hd_is t s : item_eqb s (M t) = true -> s = M t.
Proof. destruct s; try discriminate. cbn. intro H. apply tok_eqb_eq in H. congruence. Qed.

Lemma tense_start_before src L pre e post : bracketed src L -> L = rev pre ++ e :: post ->
  item_of e = M T_PRIVATE_END_TENSE -> In (M T_PRIVATE_START_TENSE) (items pre).
Proof.
  intros (H & _) E Ee. destruct (end_has_start _ _ _ _ _ H E) as (s & Hs & Is); try (rewrite Ee; reflexivity).
  apply hd_is in Hs. subst. exact Is.
Qed.

Lemma joik_start_before src L pre e post : bracketed src L -> L = rev pre ++ e :: post ->
  item_of e = M T_PRIVATE_END_JOIK -> In (M T_PRIVATE_START_JOIK) (items pre).
Proof.
  intros (_ & _ & H) E Ee. destruct (end_has_start _ _ _ _ _ H E) as (s & Hs & Is); try (rewrite Ee; reflexivity).
  apply hd_is in Hs. subst. exact Is.
Qed.

Lemma jek_start_before src L pre e post : bracketed src L -> L = rev pre ++ e :: post ->
  item_of e = M T_PRIVATE_END_JEK -> In (M T_PRIVATE_START_JEK) (items pre).
Proof.
  intros (_ & H & _) E Ee. destruct (end_has_start _ _ _ _ _ H E) as (s & Hs & Is); try (rewrite Ee; reflexivity).
  apply hd_is in Hs. subst. exact Is.
Qed.

Lemma backup_ok src L pre post : bracketed src L -> L = rev pre ++ post ->
  exists r, backup_over_jek_joik pre = Ok r /\ forall c d, r = Some (c, d) -> pre = c ++ d.
Proof.
  intros B E. destruct pre as [|x pre]; [exists None; split; [reflexivity|discriminate]|].
  rewrite rev_mid in E. cbn [backup_over_jek_joik]. destruct (mkrtest x T_PRIVATE_END_JOIK) eqn:E1.
  - apply mkrtest_item in E1. assert (I := joik_start_before _ _ _ _ _ B E E1).
    destruct (seek_some _ _ I) as (a & m & b & Es & -> & _). rewrite Es. destruct b as [|b0 b].
    + exists None. split; [reflexivity|discriminate].
    + eexists. split; [reflexivity|]. intros c d H. injection H as <- <-. cbn. rewrite <- app_assoc. reflexivity.
  - destruct (mkrtest x T_PRIVATE_END_JEK) eqn:E2; [|exists None; split; [reflexivity|discriminate]].
    apply mkrtest_item in E2. assert (I := jek_start_before _ _ _ _ _ B E E2).
    destruct (seek_some _ _ I) as (a & m & b & Es & -> & _). rewrite Es. destruct b as [|b0 b].
    + exists None. split; [reflexivity|discriminate].
    + eexists. split; [reflexivity|]. intros c d H. injection H as <- <-. cbn. rewrite <- app_assoc. reflexivity.
Qed.

Lemma seek_start_ok src L : bracketed src L -> forall fuel pre post, L = rev pre ++ post -> (List.length pre < fuel)%nat ->
  In (M T_PRIVATE_START_TENSE) (items pre) ->
  exists a m b, seek_start_tense fuel pre = Ok (a ++ [m], b) /\ pre = a ++ m :: b /\ item_of m = M T_PRIVATE_START_TENSE.
Proof.
  intro B. induction fuel as [|fuel IH]; intros pre post E F I; [lia|]. cbn [seek_start_tense].
  destruct (seek_some _ _ I) as (a & m & b & Es & -> & Em). rewrite Es.
  assert (E0 : L = rev b ++ m :: rev a ++ post).
  { rewrite E, rev_app_distr. cbn [rev]. rewrite <- !app_assoc. reflexivity. }
  destruct (backup_ok src L b _ B E0) as (r & Er & Hr). rewrite Er. cbn [obind].
  assert (D : exists a' m' b', Ok (a ++ [m], b) = Ok (a' ++ [m'], b') /\ a ++ m :: b = a' ++ m' :: b' /\ item_of m' = M T_PRIVATE_START_TENSE)
    by (exists a, m, b; auto).
  destruct r as [[c [|y d]]|]; try exact D. destruct (mkrtest y T_PRIVATE_END_TENSE) eqn:Ey; [|exact D].
  apply mkrtest_item in Ey. specialize (Hr _ _ eq_refl). subst b.
  assert (E1 : L = rev d ++ y :: rev c ++ m :: rev a ++ post).
  { rewrite E0, rev_app_distr. cbn [rev]. rewrite <- !app_assoc. reflexivity. }
  destruct (IH d _ E1) as (a' & m' & b' & E2 & -> & Em').
  - rewrite app_length in F. cbn [List.length] in F. rewrite app_length in F. cbn [List.length] in F. lia.
  - eapply tense_start_before; eauto.
  - rewrite E2. cbn [obind]. exists (a ++ m :: c ++ y :: a'), m', b'. split; [|split; [|exact Em']].
    + f_equal. f_equal. rewrite <- !app_assoc. cbn [app]. rewrite <- !app_assoc. cbn [app]. reflexivity.
    + rewrite <- !app_assoc. cbn [app]. rewrite <- !app_assoc. reflexivity.
Qed.

(* words before which gek puts its marker *)
Definition gek_co (i : item) : bool := w_in [T_GA] i || m_in [T_PRIVATE_START_TENSE; T_PRIVATE_START_JOIK] i.
Definition gek_near := near gek_co (w_in [T_SE]) false (is_tok T_PRIVATE_START_GEK).
Definition gi_near := near (m_in [T_PRIVATE_START_TENSE; T_PRIVATE_START_JOIK]) (fun _ => false) false (is_tok T_PRIVATE_START_GEK).

Lemma gek_gi_ok src L pre post : bracketed src L -> L = rev pre ++ post ->
  exists pre', gek_gi pre = Ok pre' /\ (pre' = pre \/ exists a m b, pre = a ++ m :: b /\
    (item_of m = M T_PRIVATE_START_TENSE \/ item_of m = M T_PRIVATE_START_JOIK) /\
    pre' = a ++ m :: marker T_PRIVATE_START_GEK (rev (a ++ [m])) :: b).
Proof.
  intros B E. destruct pre as [|y pre]; [exists []; cbn; auto|]. cbn [gek_gi].
  destruct (mkrtest y T_PRIVATE_END_TENSE) eqn:E1.
  - apply mkrtest_item in E1. rewrite rev_mid in E. assert (I := tense_start_before _ _ _ _ _ B E E1).
    rewrite <- rev_mid in E.
    destruct (seek_start_ok src L B (S (List.length (y :: pre))) (y :: pre) post E) as (a & m & b & Es & Ep & Em).
    + lia.
    + right. exact I.
    + rewrite Es. cbn [obind]. eexists. split; [reflexivity|]. right. exists a, m, b. unfold insert_before_last.
      rewrite <- app_assoc. auto.
  - destruct (mkrtest y T_PRIVATE_END_JOIK) eqn:E2; [|eexists; split; [reflexivity|auto]].
    apply mkrtest_item in E2. rewrite rev_mid in E. assert (I := joik_start_before _ _ _ _ _ B E E2).
    destruct (seek_some _ _ I) as (a & m & b & Es & -> & Em). rewrite Es. eexists. split; [reflexivity|]. right.
    exists (y :: a), m, b. unfold insert_before_last. cbn [app]. rewrite <- app_assoc. auto.
Qed.

Lemma gi_grows pre pre' : (pre' = pre \/ exists a m b, pre = a ++ m :: b /\
    (item_of m = M T_PRIVATE_START_TENSE \/ item_of m = M T_PRIVATE_START_JOIK) /\
    pre' = a ++ m :: marker T_PRIVATE_START_GEK (rev (a ++ [m])) :: b) ->
  forall post, grows gi_near (rev pre ++ post) (rev pre' ++ post).
Proof.
  intros [->|(a & m & b & -> & Hm & ->)] post; [constructor|].
  rewrite !rev_app_distr. cbn [rev]. rewrite <- !app_assoc. cbn [app]. apply grows_one with (t := T_PRIVATE_START_GEK); [reflexivity|].
  split; [reflexivity|]. left. exists [], (item_of m), (items (rev a ++ post)). repeat split.
  destruct Hm as [->| ->]; reflexivity.
Qed.

Lemma gi_gek A t B : gi_near A t B -> gek_near A t B.
Proof.
  intros (Hm & [(xs & y & rest & E & F & C)|(Hb & _)]); [|discriminate]. split; [exact Hm|]. left. exists xs, y, rest.
  repeat split; auto.
  - destruct xs; [reflexivity|discriminate].
  - unfold gek_co. rewrite C. apply orb_true_r.
Qed.

Lemma keep_all src L L' co si bwd mk :
  foreignb (Ktense src) co si bwd mk = true -> foreignb Kjek co si bwd mk = true -> foreignb Kjoik co si bwd mk = true ->
  grows (near co si bwd mk) L L' -> bracketed src L -> bracketed src L'.
Proof.
  intros F1 F2 F3 G (H1 & H2 & H3).
  repeat split; eapply grows_keeps; try apply foreignb_ok; eauto.
Qed.

Lemma gek_pass_ok src : forall post pre, bracketed src (rev pre ++ post) ->
  exists out, gek_pass pre post = Ok out /\ grows gek_near (rev pre ++ post) out.
Proof.
  induction post as [|x post IH]; intros pre B; cbn [gek_pass].
  - exists (rev pre). rewrite app_nil_r. split; [reflexivity|constructor].
  - assert (Go : forall pre', grows gek_near (rev pre ++ x :: post) (rev pre' ++ x :: post) ->
      exists out, gek_pass (x :: pre') post = Ok out /\ grows gek_near (rev pre ++ x :: post) out).
    { intros pre' G. destruct (IH (x :: pre')) as (out & E & G').
      - rewrite rev_mid. revert B. eapply keep_all; [| | |exact G]; vm_compute; reflexivity.
      - exists out. split; [exact E|]. eapply grows_trans; [exact G|]. rewrite rev_mid in G'. exact G'. }
    destruct (cmtest x T_GA) eqn:E1.
    + apply Go. apply insert_back_grows; [|reflexivity]. apply cmtest_item in E1. rewrite E1. reflexivity.
    + destruct (cmtest x T_GI) eqn:E2; [|apply Go; constructor].
      destruct (gek_gi_ok src _ pre (x :: post) B eq_refl) as (pre' & Eg & Hg). rewrite Eg. cbn [obind].
      apply Go. eapply grows_mono; [apply gi_gek|]. apply gi_grows. exact Hg.
Qed.

Lemma grows_counts co si bwd mk l out : (forall t, mk t = true -> bracket t = true) ->
  grows (near co si bwd mk) l out -> forallb counts (items l) = true -> forallb counts (items out) = true.
Proof.
  intros Hm G. induction G; [auto|]. intro C. apply IHG. rewrite items_app in *. apply forallb_app_l in C. destruct C as [C1 C2].
  rewrite forallb_app, C1. cbn [items map forallb]. rewrite (item_marker m t) by assumption. cbn. rewrite (Hm t), C2; [reflexivity|].
  destruct H0. assumption.
Qed.

Lemma gek_pass_own src : forall post pre out, bracketed src (rev pre ++ post) ->
  gek_pass pre post = Ok out -> forallb counts (items pre) = true -> forallb counts (items post) = true ->
  Q Kgek (items (rev pre)) (items post) -> Q Kgek (items out) [].
Proof.
  induction post as [|x post IH]; intros pre out B E C C2 H; cbn [gek_pass] in E.
  - injection E as <-. exact H.
  - rewrite items_cons in C2. cbn [forallb] in C2. apply andb_true_iff in C2. destruct C2 as [Kx C2].
    assert (Cx : forall l, forallb counts (items l) = true -> forallb counts (items (x :: l)) = true).
    { intros l Cl. rewrite items_cons. cbn [forallb]. rewrite Kx. exact Cl. }
    assert (Skip : forall pre', bracketed src (rev pre' ++ x :: post) -> gek_pass (x :: pre') post = Ok out ->
      forallb counts (items pre') = true -> Q Kgek (items (rev pre')) (items (x :: post)) ->
      core_item gek (item_of x) = false -> Q Kgek (items out) []).
    { intros pre' B' E' C' H' Nx. apply (IH (x :: pre') out); auto.
      - rewrite rev_mid. exact B'.
      - cbn [rev]. rewrite items_app. apply Q_snoc; [exact H'|exact Nx]. }
    destruct (cmtest x T_GA) eqn:E1.
    + apply cmtest_item in E1. apply (IH (x :: insert_back [T_SE] T_PRIVATE_START_GEK pre) out); auto.
      * rewrite rev_mid. revert B. eapply keep_all with (co := gek_co) (si := w_in [T_SE]) (bwd := false) (mk := is_tok T_PRIVATE_START_GEK);
          try (vm_compute; reflexivity). apply insert_back_grows; [|reflexivity]. rewrite E1. reflexivity.
      * apply Cx. apply insert_back_counts; [exact C|reflexivity].
      * eapply (open_step gek _ _ T_GA [T_SE]); auto. intros t [<-|[]]; reflexivity.
    + assert (Nx : core_item gek (item_of x) = false).
      { destruct (item_of x) as [t| | |] eqn:Ex; try reflexivity. unfold core_item. cbn [gek ck_cores existsb fst]. rewrite orb_false_r.
        destruct (tok_eqb T_GA t) eqn:Et; [|reflexivity]. apply tok_eqb_eq in Et. subst t.
        assert (cmtest x T_GA = true) by (apply cmtest_item; exact Ex). congruence. }
      destruct (cmtest x T_GI) eqn:E2; [|eapply Skip; eauto].
      destruct (gek_gi_ok src _ pre (x :: post) B eq_refl) as (pre' & Eg & Hg). rewrite Eg in E. cbn [obind] in E.
      assert (G := gi_grows _ _ Hg). assert (G0 := G []). rewrite !app_nil_r in G0.
      apply (Skip pre'); auto.
      * revert B. eapply keep_all; [| | |exact (G (x :: post))]; vm_compute; reflexivity.
      * rewrite <- forallb_rev, <- items_rev. eapply grows_counts; [|exact G0|].
        -- intros t Ht. apply tok_eqb_eq in Ht. subst. reflexivity.
        -- rewrite items_rev, forallb_rev. exact C.
      * eapply grows_keeps; [|exact G0|exact H]. apply foreignb_ok. vm_compute. reflexivity.
Qed.

(* ---------------------------------------------------------------- *)
(* forward skips *)

(* what a skip returns is a cut of its argument *)
Definition cuts (f : list node -> outcome (option (list node * list node))) (l : list node) : Prop :=
  exists r, f l = Ok r /\ forall a b, r = Some (a, b) -> l = a ++ b /\ a <> [].

Lemma straddle_closed_ok K m e L pre l : Q K (items L) [] -> L = rev pre ++ l ->
  a_sel K (M m) = true -> a_fin K (M m) = false -> (forall i, a_fin K i = true -> i = M e) ->
  cuts (straddle_closed m e) l.
Proof.
  intros H E S F Fe. unfold cuts, straddle_closed. destruct l as [|x l]; [exists None; split; [reflexivity|discriminate]|].
  destruct (mkrtest x m) eqn:Ex; [|exists None; split; [reflexivity|discriminate]].
  apply mkrtest_item in Ex. destruct (start_has_end K L pre x l H E) as (i & Hi & Ii); try (rewrite Ex; assumption).
  apply Fe in Hi. subst i. destruct (seek_some _ _ Ii) as (a & n & b & Es & -> & _). rewrite Es.
  eexists. split; [reflexivity|]. intros c d Hc. injection Hc as <- <-. split; [|discriminate].
  cbn. rewrite <- app_assoc. reflexivity.
Qed.

Lemma straddle_jek_ok src L pre l : bracketed src L -> L = rev pre ++ l -> cuts straddle_jek l.
Proof.
  intros (_ & H & _) E. eapply (straddle_closed_ok Kjek); eauto. intros i. apply hd_is.
Qed.

Lemma straddle_joik_ok src L pre l : bracketed src L -> L = rev pre ++ l -> cuts straddle_joik l.
Proof.
  intros (_ & _ & H) E. eapply (straddle_closed_ok Kjoik); eauto. intros i. apply hd_is.
Qed.

Lemma straddle_either src L pre l : bracketed src L -> L = rev pre ++ l ->
  exists r, (do s <- straddle_jek l; match s with Some _ => Ok s | None => straddle_joik l end) = Ok r /\
    forall a b, r = Some (a, b) -> l = a ++ b /\ a <> [].
Proof.
  intros B E. destruct (straddle_jek_ok src L pre l B E) as (r & Er & Hr). rewrite Er. cbn [obind].
  destruct r as [p|]; [exists (Some p); auto|]. exact (straddle_joik_ok src L pre l B E).
Qed.

Lemma lookahead_ok src L : bracketed src L -> forall fuel pre l, L = rev pre ++ l -> (List.length l < fuel)%nat ->
  exists r c d, lookahead fuel l = Ok (r, c, d) /\ l = c ++ d.
Proof.
  intro B. induction fuel as [|fuel IH]; intros pre l E F; [lia|]. cbn [lookahead]. destruct l as [|x l].
  - exists FOUND_OTHER, [], []. auto.
  - destruct (mkrtest x T_PRIVATE_START_TENSE) eqn:Ex; [|eexists _, [], _; split; reflexivity].
    apply mkrtest_item in Ex. destruct B as (BT & BJ & BI).
    destruct (start_has_end _ L pre x l BT E) as (i & Hi & Ii); try (rewrite Ex; reflexivity).
    apply hd_is in Hi. subst i. destruct (seek_some _ _ Ii) as (a & n & b & Es & -> & _). rewrite Es.
    assert (E1 : L = rev (n :: rev a ++ x :: pre) ++ b).
    { rewrite E. cbn [rev]. rewrite rev_app_distr, rev_involutive. cbn [rev]. rewrite <- !app_assoc. reflexivity. }
    destruct (straddle_either src L _ b (conj BT (conj BJ BI)) E1) as (r & Er & Hr).
    destruct (straddle_jek b) as [s1| | | |] eqn:Ej; cbn [obind] in Er |- *; try discriminate.
    rewrite Er. cbn [obind]. destruct r as [[c d]|].
    + destruct (Hr _ _ eq_refl) as [-> Nc]. destruct d as [|y d].
      * eexists _, _, _. split; [reflexivity|]. cbn. rewrite <- !app_assoc. reflexivity.
      * destruct (mkrtest y T_PRIVATE_START_TENSE).
        -- destruct (IH (rev c ++ n :: rev a ++ x :: pre) (y :: d)) as (r & c' & d' & El & Ed).
           ++ rewrite E1. rewrite rev_app_distr, rev_involutive. rewrite <- app_assoc. reflexivity.
           ++ cbn [List.length] in *. rewrite app_length in F. cbn [List.length] in F. rewrite !app_length in F. cbn [List.length] in F. lia.
           ++ rewrite El. cbn [obind]. eexists _, _, _. split; [reflexivity|]. rewrite Ed. cbn. rewrite <- !app_assoc. reflexivity.
        -- eexists _, _, _. split; [reflexivity|]. cbn. rewrite <- !app_assoc. reflexivity.
    + eexists _, _, _. split; [reflexivity|]. cbn. rewrite <- !app_assoc. reflexivity.
Qed.

Lemma look_ok src L pre l : bracketed src L -> L = rev pre ++ l -> exists r c d, look l = Ok (r, c, d) /\ l = c ++ d.
Proof. intros B E. eapply lookahead_ok; eauto. Qed.

(* ---------------------------------------------------------------- *)
(* ibo, kebo *)

Definition ibo_near := near (w_in [T_I]) (fun _ => false) false (is_tok T_PRIVATE_I_BO).

Lemma before_grows co mk m (x : node) pre post : co (item_of x) = true -> mk m = true ->
  grows (near co (fun _ => false) false mk) (rev pre ++ x :: post) (rev (marker m (x :: post) :: pre) ++ x :: post).
Proof.
  intros Hc Hm. rewrite rev_mid. apply grows_one with (t := m); [reflexivity|]. split; [exact Hm|]. left.
  exists [], (item_of x), (items post). repeat split. exact Hc.
Qed.

Lemma rev_jump {A} (x : A) pre a c d : rev (rev c ++ rev a ++ x :: pre) ++ d = rev pre ++ x :: a ++ c ++ d.
Proof. rewrite !rev_app_distr, !rev_involutive. cbn [rev]. rewrite <- !app_assoc. reflexivity. Qed.

Lemma ibo_pass_ok src : forall fuel pre post, bracketed src (rev pre ++ post) -> (List.length post < fuel)%nat ->
  exists out, ibo_pass fuel pre post = Ok out /\ grows ibo_near (rev pre ++ post) out.
Proof.
  induction fuel as [|fuel IH]; intros pre post B F; [lia|]. cbn [ibo_pass]. destruct post as [|x y].
  - exists (rev pre). rewrite app_nil_r. split; [reflexivity|constructor].
  - destruct (cmtest x T_I) eqn:Ex.
    + apply cmtest_item in Ex.
      assert (Ey : rev pre ++ x :: y = rev (x :: pre) ++ y) by (symmetry; apply rev_mid).
      destruct (straddle_either src _ (x :: pre) y B Ey) as (r & Er & Hr).
      destruct (straddle_jek y) as [s1| | | |] eqn:Ej; cbn [obind] in Er |- *; try discriminate.
      rewrite Er. cbn [obind]. destruct (match r with Some p => p | None => ([], y) end) as [a b] eqn:Ea.
      assert (Ya : y = a ++ b).
      { destruct r as [[a' b']|]; injection Ea as <- <-; [apply (Hr _ _ eq_refl)|reflexivity]. }
      subst y. destruct (look_ok src _ (rev a ++ x :: pre) b B) as (q & c & d & Eq & ->).
      { rewrite !rev_app_distr, !rev_involutive. cbn [rev]. rewrite <- !app_assoc. reflexivity. }
      rewrite Eq. cbn [obind].
      set (pre' := match q with FOUND_BO => marker T_PRIVATE_I_BO (x :: a ++ c ++ d) :: pre | _ => pre end).
      assert (G : grows ibo_near (rev pre ++ x :: a ++ c ++ d) (rev pre' ++ x :: a ++ c ++ d)).
      { unfold pre'. destruct q; try constructor. apply before_grows; [rewrite Ex|]; reflexivity. }
      destruct (IH (rev c ++ rev a ++ x :: pre') d) as (out & Eo & G').
      * rewrite rev_jump. revert B. eapply keep_all; [| | |exact G]; vm_compute; reflexivity.
      * cbn [List.length] in F. rewrite !app_length in F. lia.
      * exists out. split; [exact Eo|]. eapply grows_trans; [exact G|]. rewrite rev_jump in G'. exact G'.
    + destruct (IH (x :: pre) y) as (out & Eo & G').
      * rewrite rev_mid. exact B.
      * cbn in F. lia.
      * exists out. split; [exact Eo|]. rewrite rev_mid in G'. exact G'.
Qed.

(* the passes for a following bo or ke *)
Lemma kebo_pass_ok src m bo ke straddle guard (I : list node -> Prop) :
  let kn := near (m_in [m]) (fun _ => false) false (fun t => tok_eqb t bo || tok_eqb t ke) in
  (forall L L', grows kn L L' -> I L -> I L') -> (forall L, I L -> bracketed src L) ->
  (forall L pre x post, I L -> L = rev pre ++ x :: post -> item_of x = M m ->
     exists a b, straddle (x :: post) = Ok (Some (a, b)) /\ x :: post = a ++ b /\ a <> []) ->
  forall fuel pre post, I (rev pre ++ post) -> (List.length post < fuel)%nat ->
  exists out, kebo_pass fuel m bo ke straddle guard pre post = Ok out /\ grows kn (rev pre ++ post) out.
Proof.
  intros kn Ik Ib Is. induction fuel as [|fuel IH]; intros pre post B F; [lia|]. cbn [kebo_pass]. destruct post as [|x y].
  - exists (rev pre). rewrite app_nil_r. split; [reflexivity|constructor].
  - destruct (mkrtest x m && _) eqn:Ex.
    + apply andb_true_iff in Ex. destruct Ex as [Ex _]. apply mkrtest_item in Ex.
      destruct (Is _ pre x y B eq_refl Ex) as (a & b & Es & Eab & Na). rewrite Es. cbn [obind].
      destruct (look_ok src _ (rev a ++ pre) b (Ib _ B)) as (q & c & d & Eq & ->).
      { rewrite rev_app_distr, rev_involutive, <- app_assoc, <- Eab. reflexivity. }
      rewrite Eq. cbn [obind].
      set (pre' := match q with FOUND_BO => marker bo (x :: y) :: pre | FOUND_KE => marker ke (x :: y) :: pre | FOUND_OTHER => pre end).
      assert (G : grows kn (rev pre ++ x :: y) (rev pre' ++ x :: y)).
      { assert (Hm : m_in [m] (item_of x) = true) by (rewrite Ex; cbn; rewrite tok_eqb_refl; reflexivity).
        unfold pre'. destruct q; try constructor; apply before_grows; auto; rewrite tok_eqb_refl; auto using orb_true_r. }
      destruct (IH (rev c ++ rev a ++ pre') d) as (out & Eo & G').
      * rewrite !rev_app_distr, !rev_involutive, <- !app_assoc, <- Eab. eapply Ik; eauto.
      * destruct a as [|a0 a]; [contradiction|]. cbn in Eab. injection Eab as _ ->. cbn [List.length] in F. rewrite !app_length in F. lia.
      * exists out. split; [exact Eo|]. eapply grows_trans; [exact G|].
        rewrite !rev_app_distr, !rev_involutive, <- !app_assoc, <- Eab in G'. exact G'.
    + destruct (IH (x :: pre) y) as (out & Eo & G').
      * rewrite rev_mid. exact B.
      * cbn in F. lia.
      * exists out. split; [exact Eo|]. rewrite rev_mid in G'. exact G'.
Qed.
