From Coq Require Import String List NArith Bool Arith Lia.
From Verif Require Import Base Arr DfaModel NfaData DfaTables DfaSpec DfaReadProofs DfaTablesProofs DfaSubsetProofs DfaBuildProofs.
From Verif Require Import TokData TokModel ErasureProofs CategModel CategSpec.
Import ListNotations.
Open Scope N_scope.
Open Scope list_scope.

(* ---------------------------------------------------------------- *)
(* the tense scan against the description *)

Lemma stag_token_ok y : stag_token y = tense_token (item_of y).
Proof.
  destruct y as [d ? ? ? ? ? ?]. unfold stag_token, item_of. cbn [dat].
  destruct d; try reflexivity. destruct selmao; vm_compute; reflexivity.
Qed.

Lemma stag_runs src : read_description stag_desc = Ok src ->
  forall w, exists o, run_tables stag_tables (Some 0) w = Ok o /\ answers src stag_tables w o.
Proof.
  intro Hsrc. destruct (dfasyn_sized stag_desc stag_tables stag_generated) as (s & E & H);
    try (apply N.leb_le; vm_compute; reflexivity).
  rewrite Hsrc in E. injection E as <-. exact H.
Qed.

Lemma stag_has_default src : read_description stag_desc = Ok src -> ev_def (s_exit src) = Some "FAILURE"%string.
Proof.
  intro Hsrc.
  assert (E : match read_description stag_desc with Ok s => ev_def (s_exit s) | _ => None end = Some "FAILURE"%string)
    by (vm_compute; reflexivity).
  rewrite Hsrc in E. exact E.
Qed.

Section Tense.
Variable src : source.
Hypothesis stag_run : forall w, exists o, run_tables stag_tables (Some 0) w = Ok o /\ answers src stag_tables w o.
Hypothesis stag_default : ev_def (s_exit src) = Some "FAILURE"%string.

Lemma run_app tb u : forall s v, run_tables tb s (u ++ v) =
  do o <- run_tables tb s u; run_tables tb o v.
Proof.
  induction u as [|t u IH]; intros s v; [reflexivity|]. cbn [app run_tables].
  destruct (next_state tb s t); cbn [obind]; auto.
Qed.

Lemma run_dead tb v : run_tables tb None v = Ok None.
Proof. induction v as [|t v IH]; [reflexivity|]. cbn [run_tables next_state obind]. exact IH. Qed.

(* the states of live strings *)
Definition at_state (w : list N) (s : N) : Prop := run_tables stag_tables (Some 0) w = Ok (Some s).

Lemma at_alive w s : at_state w s -> alive src w.
Proof.
  unfold at_state. intro E. destruct (stag_run w) as (o & E' & H). rewrite E in E'. injection E' as <-.
  exact (proj1 H).
Qed.

Lemma alive_at w : alive src w -> exists s, at_state w s.
Proof.
  unfold at_state. intro A. destruct (stag_run w) as ([s|] & E & H); [eauto|contradiction].
Qed.

Lemma alive_prefix u v : alive src (u ++ v) -> alive src u.
Proof.
  intro A. apply alive_at in A. destruct A as (s & E). unfold at_state in E. rewrite run_app in E.
  destruct (stag_run u) as ([i|] & E' & H); rewrite E' in E; cbn [obind] in E.
  - exact (proj1 H).
  - rewrite run_dead in E. discriminate.
Qed.

Lemma exit_at w s : at_state w s ->
  (stag_exit s = true <-> exists r, exit_rule src w (Some r) /\ r_result r = "SUCCESS"%string).
Proof.
  unfold at_state. intro E. destruct (stag_run w) as (o & E' & H). rewrite E in E'. injection E' as <-.
  destruct H as (A & re & ra & Hre & _ & Hx & _). unfold stag_exit. rewrite Hx.
  destruct re as [r|]; cbn [option_map with_default].
  - rewrite String.eqb_eq. split.
    + intro Hr. exists r. auto.
    + intros (r' & H' & Hr). assert (K : Some r = Some r') by (eapply selects_fun; eauto). injection K as <-. exact Hr.
  - rewrite stag_default. split; [intro K; vm_compute in K; discriminate|].
    intros (r' & H' & Hr). assert (K : None = Some r') by (eapply selects_fun; eauto). discriminate.
Qed.

Lemma map_some_inj : forall a b : list N, map Some a = map Some b -> a = b.
Proof. induction a as [|x a IH]; destruct b as [|y b]; cbn; intro H; try discriminate; [reflexivity|]. injection H as -> H. f_equal. auto. Qed.

Lemma map_some_app : forall (l : list item) m w, map tense_token (l ++ m) = map Some w ->
  exists u v, w = u ++ v /\ map tense_token l = map Some u /\ map tense_token m = map Some v.
Proof.
  intros l m w H. rewrite map_app in H. symmetry in H. apply map_eq_app in H.
  destruct H as (u & v & -> & Hu & Hv). exists u, v. auto.
Qed.

Lemma tense_viable l : tense src l -> viable src l.
Proof. intros (w & r & H & A & _). exists w. auto. Qed.

Lemma viable_prefix l m : viable src (l ++ m) -> viable src l.
Proof.
  intros (w & H & A). apply map_some_app in H. destruct H as (u & v & -> & Hu & Hv).
  exists u. split; [exact Hu|]. eapply alive_prefix; eauto.
Qed.

Definition items := map item_of.

(* what tense_run has found when it stops, for the prefix read so far *)
Definition best (l : list node) (o : option nat) : Prop :=
  match o with
  | Some k => (0 < k <= List.length l)%nat /\ tense src (items (firstn k l)) /\
      forall j, (k < j <= List.length l)%nat -> ~ tense src (items (firstn j l))
  | None => forall j, (0 < j <= List.length l)%nat -> ~ tense src (items (firstn j l))
  end.

Lemma firstn_le {A} (j : nat) (p q : list A) : (j <= List.length p)%nat -> firstn j (p ++ q) = firstn j p.
Proof. intro H. rewrite firstn_app. replace (j - List.length p)%nat with O by lia. cbn. apply app_nil_r. Qed.

(* extending a list by one node with the given verdict *)
Lemma best_snoc p y o : best p o -> forall b : bool,
  (b = true <-> tense src (items (p ++ [y]))) ->
  best (p ++ [y]) (if b then Some (S (List.length p)) else o).
Proof.
  intros H b Hb. assert (L : List.length (p ++ [y]) = S (List.length p)) by (rewrite app_length; cbn; lia).
  destruct b.
  - cbn [best]. rewrite L. split; [lia|]. split; [|intros j Hj; lia].
    rewrite <- L, firstn_all. apply Hb. reflexivity.
  - assert (N : ~ tense src (items (p ++ [y]))) by (intro K; apply Hb in K; discriminate).
    destruct o as [k|]; cbn [best] in *; rewrite L.
    + destruct H as (H1 & H2 & H3). split; [lia|]. rewrite firstn_le by lia. split; [exact H2|].
      intros j Hj. destruct (Nat.eq_dec j (S (List.length p))) as [->|].
      * rewrite <- L, firstn_all. exact N.
      * rewrite firstn_le by lia. apply H3. lia.
    + intros j Hj. destruct (Nat.eq_dec j (S (List.length p))) as [->|].
      * rewrite <- L, firstn_all. exact N.
      * rewrite firstn_le by lia. apply H. lia.
Qed.

Lemma best_dead p y post o : best p o -> ~ viable src (items (p ++ [y])) -> best (p ++ y :: post) o.
Proof.
  intros H N. assert (D : forall j, (List.length p < j)%nat -> ~ tense src (items (firstn j (p ++ y :: post)))).
  { intros j Hj T. apply N. apply tense_viable in T. rewrite firstn_app in T.
    replace (j - List.length p)%nat with (S (j - List.length p - 1)) in T by lia. cbn [firstn] in T.
    rewrite firstn_all2 in T by lia. unfold items in *. rewrite map_app in T. cbn [map] in T.
    rewrite map_app. cbn [map]. change (item_of y :: map item_of (firstn (j - List.length p - 1) post))
      with ([item_of y] ++ map item_of (firstn (j - List.length p - 1) post)) in T.
    rewrite app_assoc in T. eapply viable_prefix; eauto. }
  destruct o as [k|]; cbn [best] in *.
  - destruct H as (H1 & H2 & H3). rewrite app_length. split; [lia|]. rewrite firstn_le by lia. split; [exact H2|].
    intros j Hj. destruct (le_lt_dec j (List.length p)).
    + rewrite firstn_le by lia. apply H3. lia.
    + apply D. lia.
  - intros j Hj. destruct (le_lt_dec j (List.length p)).
    + rewrite firstn_le by lia. apply H. lia.
    + apply D. lia.
Qed.

Lemma run_snoc w t s : at_state w s -> run_tables stag_tables (Some 0) (w ++ [t]) = next_state stag_tables (Some s) t.
Proof.
  unfold at_state. intro E. rewrite run_app, E. cbn [obind run_tables].
  destruct (next_state stag_tables (Some s) t); reflexivity.
Qed.

Lemma tense_run_ok : forall post p w s n last,
  map tense_token (items p) = map Some w -> at_state w s -> n = List.length p -> best p last ->
  exists o e, tense_run s post n last = Ok (o, e) /\ best (p ++ post) o /\
    (e = true <-> viable src (items (p ++ post))).
Proof.
  induction post as [|y post IH]; intros p w s n last Hp Hs Hn Hb.
  - cbn [tense_run]. exists last, true. rewrite app_nil_r. repeat split; auto.
    intros _. exists w. split; [exact Hp|]. eapply at_alive; eauto.
  - cbn [tense_run]. unfold stag_next. rewrite stag_token_ok.
    assert (Dead : ~ viable src (items (p ++ [y])) -> best (p ++ y :: post) last /\
      (false = true <-> viable src (items (p ++ y :: post)))).
    { intro N. split; [apply best_dead; assumption|]. split; [discriminate|]. intro V. exfalso. apply N.
      unfold items in *. rewrite map_app in *. cbn [map] in *.
      change (item_of y :: map item_of post) with ([item_of y] ++ map item_of post) in V.
      rewrite app_assoc in V. eapply viable_prefix; eauto. }
    destruct (tense_token (item_of y)) as [t|] eqn:Et.
    + assert (Hp' : map tense_token (items (p ++ [y])) = map Some (w ++ [t])).
      { unfold items in *. rewrite !map_app, Hp. cbn [map]. rewrite Et. reflexivity. }
      rewrite <- (run_snoc w t s Hs).
      destruct (stag_run (w ++ [t])) as (o & Eo & Ho). rewrite Eo. cbn [obind]. destruct o as [s'|].
      * assert (A' : at_state (w ++ [t]) s') by exact Eo.
        destruct (IH (p ++ [y]) (w ++ [t]) s' (S n) (if stag_exit s' then Some (S n) else last)) as (o & e & E & K1 & K2); auto.
        -- rewrite app_length. cbn. lia.
        -- rewrite Hn. apply best_snoc; [exact Hb|]. rewrite (exit_at _ _ A'). split.
           ++ intros (r & H1 & H2). exists (w ++ [t]), r. repeat split; auto; apply (at_alive _ _ A').
           ++ intros (w' & r & H1 & H2 & H3 & H4). rewrite Hp' in H1. apply map_some_inj in H1. subst w'. eauto.
        -- exists o, e. rewrite <- app_assoc in K1, K2. auto.
      * exists last, false. split; [reflexivity|]. apply Dead. intros (w' & H1 & H2).
        rewrite Hp' in H1. apply map_some_inj in H1. subst w'. cbn [answers] in Ho. contradiction.
    + cbn [obind]. exists last, false. split; [reflexivity|]. apply Dead. intros (w' & H1 & H2).
      unfold items in H1. rewrite !map_app in H1. cbn [map] in H1. rewrite Et in H1.
      clear - H1. revert w' H1. generalize (map tense_token (map item_of p)). induction l as [|a l IHl]; intros [|b w'] H; cbn in H; try discriminate.
      injection H as _ H. eauto.
Qed.

Lemma best_longest l k : best l (Some k) -> longest_tense src l (firstn k l) (skipn k l).
Proof.
  intros (H1 & H2 & H3). repeat split.
  - symmetry. apply firstn_skipn.
  - destruct l; [cbn in H1; lia|]. destruct k; [lia|]. discriminate.
  - exact H2.
  - intros c d E T. rewrite firstn_length_le by lia. destruct (le_lt_dec (List.length c) k); [assumption|].
    exfalso. apply (H3 (List.length c)).
    + rewrite E, app_length. lia.
    + rewrite E, firstn_app, firstn_all, Nat.sub_diag. cbn. rewrite app_nil_r. exact T.
Qed.

Lemma best_no_tense l : best l None -> no_tense src l.
Proof.
  intros H c d E Hc T. apply (H (List.length c)).
  - rewrite E, app_length. destruct c; [contradiction|cbn; lia].
  - rewrite E, firstn_app, firstn_all, Nat.sub_diag. cbn. rewrite app_nil_r. exact T.
Qed.

Lemma at_start : at_state [] 0.
Proof. reflexivity. Qed.

Lemma best_nil : best [] None.
Proof. intros j H. cbn in H. lia. Qed.

Lemma marker_hd t l y l' : l = y :: l' -> marker t l = mark t y.
Proof. intros ->. reflexivity. Qed.

Lemma tense_pass_ok : forall fuel pre post, (List.length post < fuel)%nat ->
  (exists out, tense_pass fuel pre post = Ok (rev pre ++ out) /\ tense_marked src post out /\ ~ tense_cut_short src post) \/
  (tense_pass fuel pre post = UB UB_null /\ tense_cut_short src post).
Proof.
  induction fuel as [|fuel IH]; intros pre post F; [lia|]. cbn [tense_pass]. destruct post as [|x post'].
  - left. exists []. rewrite app_nil_r. split; [reflexivity|]. split; [constructor|]. intro K. inversion K as [l H|a b H|]; subst.
    + contradiction.
    + destruct H as (_ & H & _). destruct a; [contradiction|discriminate].
  - destruct (tense_run_ok (x :: post') [] [] 0 O None eq_refl at_start eq_refl best_nil) as (o & e & E & B & V).
    rewrite E. cbn [obind app] in *. destruct o as [k|].
    + apply best_longest in B. set (a := firstn k (x :: post')) in *. set (b := skipn k (x :: post')) in *.
      assert (El : x :: post' = a ++ b) by (symmetry; apply firstn_skipn).
      assert (Na : a <> []) by apply B. destruct (exists_last Na) as (a0 & z & Ea).
      assert (Fb : (List.length b < fuel)%nat).
      { assert (L : List.length (x :: post') = List.length (a ++ b)) by (f_equal; exact El).
        rewrite app_length, Ea, app_length in L. cbn [List.length] in L, F. lia. }
      assert (Ez : hd_error (rev a) = Some z) by (rewrite Ea, rev_unit; reflexivity).
      assert (Ex : hd_error a = Some x).
      { destruct a as [|x' a']; [contradiction|]. cbn in El. injection El as <- _. reflexivity. }
      specialize (IH (marker T_PRIVATE_END_TENSE (rev a) :: rev a ++ marker T_PRIVATE_START_TENSE (x :: post') :: pre) b Fb).
      rewrite El in B. destruct IH as [(out & H1 & H2 & H3)|(H1 & H2)].
      * left. exists (marker T_PRIVATE_START_TENSE (x :: post') :: a ++ marker T_PRIVATE_END_TENSE (rev a) :: out).
        rewrite H1. split; [|split].
        -- f_equal. cbn [rev]. rewrite rev_app_distr, rev_involutive. cbn [rev]. rewrite <- !app_assoc. reflexivity.
        -- rewrite (marker_hd _ _ _ _ eq_refl). rewrite (marker_hd _ (rev a) z (rev a0)) by (rewrite Ea; apply rev_unit).
           rewrite El. apply tm_tense; auto.
        -- rewrite El. intro K. inversion K as [l Hl Hn Hv|a' b' Hl Hc Heq|x' b' Hn Hc Heq]; subst.
           ++ apply (Hn a b eq_refl Na). apply B.
           ++ assert (La : List.length a' = List.length a).
              { apply Nat.le_antisymm.
                - destruct B as (_ & _ & _ & B). apply (B a' b'); [exact (eq_sym Heq)|]. apply Hl.
                - destruct Hl as (_ & _ & _ & Hl). apply (Hl a b); [exact Heq|]. apply B. }
              assert (b' = b); [|subst; contradiction]. clear - Heq La.
              revert Heq La. generalize a b. clear. intros c d. revert c. induction a' as [|x a' IH]; destruct c; cbn; intros H L; try discriminate; [exact H|].
              injection H as _ H. eauto.
           ++ rewrite Heq in Hn. apply (Hn a b eq_refl Na). apply B.
      * right. split; [exact H1|]. rewrite El. apply ts_tense; assumption.
    + apply best_no_tense in B. destruct e.
      * right. split; [reflexivity|]. apply ts_here; [discriminate|exact B|]. apply V. reflexivity.
      * specialize (IH (x :: pre) post' ltac:(cbn in F; lia)).
        destruct IH as [(out & H1 & H2 & H3)|(H1 & H2)].
        -- left. exists (x :: out). rewrite H1. split; [|split].
           ++ f_equal. cbn [rev]. rewrite <- app_assoc. reflexivity.
           ++ apply tm_skip; assumption.
           ++ intro K. inversion K as [l Hl Hn Hv|a' b' Hl Hc Heq|x' b' Hn Hc]; subst.
              ** apply V in Hv. discriminate.
              ** rewrite Heq in Hl. destruct Hl as (_ & Hl1 & Hl2 & _). apply (B a' b'); auto.
              ** contradiction.
        -- right. split; [exact H1|]. apply ts_skip; assumption.
Qed.

Lemma categorize_tenses_ok l :
  (exists out, categorize_tenses l = Ok out /\ tense_marked src l out /\ ~ tense_cut_short src l) \/
  (categorize_tenses l = UB UB_null /\ tense_cut_short src l).
Proof. exact (tense_pass_ok (S (List.length l)) [] l (Nat.lt_succ_diag_r _)). Qed.

End Tense.
