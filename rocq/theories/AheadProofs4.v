From Coq Require Import String List NArith Bool Arith Lia.
From Verif Require Import Base TokData TokModel ErasureProofs DfaModel DfaSpec NfaData CategModel CategSpec.
From Verif Require Import CategProofs CategProofs2 CategProofs3 CategProofs4 CategProofs5 AheadSpec AheadProofs AheadProofs2 AheadProofs3.
Import ListNotations.
Open Scope N_scope.
Open Scope list_scope.

Lemma link_quiet s e w p i l : link_then s e w p (i :: l) -> quiet (M s) true p i = false.
Proof.
  intros H. assert (i = M s) by (eapply link_then_head; exact H). subst i. destruct H as (N1 & N2 & _).
  unfold quiet. rewrite item_eqb_refl. cbn [negb orb andb]. destruct p as [j|]; [|reflexivity].
  destruct (item_eqb j (W T_I)) eqn:E1; [apply item_eqb_eq in E1; congruence|].
  destruct (item_eqb j (M T_PRIVATE_END_TENSE)) eqn:E2; [apply item_eqb_eq in E2; congruence|reflexivity].
Qed.

Lemma jek_of : pass_of [T_PRIVATE_JEK_BO; T_PRIVATE_JEK_KE] (M T_PRIVATE_START_JEK) true.
Proof. intros t p i l [<-|[<-|[]]] S; eapply link_quiet; exact S. Qed.
Lemma joik_of : pass_of [T_PRIVATE_JOIK_BO; T_PRIVATE_JOIK_KE] (M T_PRIVATE_START_JOIK) true.
Proof. intros t p i l [<-|[<-|[]]] S; eapply link_quiet; exact S. Qed.
Lemma ek_of : pass_of [T_PRIVATE_EK_BO; T_PRIVATE_EK_KE] (M T_PRIVATE_START_EK) false.
Proof. intros t p i l [<-|[<-|[]]] S; cbn [stands] in S; apply conn_then_head in S; subst i; reflexivity. Qed.
Lemma gihek_of : pass_of [T_PRIVATE_GIHEK_BO; T_PRIVATE_GIHEK_KE] (M T_PRIVATE_START_GIHEK) false.
Proof. intros t p i l [<-|[<-|[]]] S; cbn [stands] in S; apply conn_then_head in S; subst i; reflexivity. Qed.

Section In_list.
Variable src : source.
Variable L : list node.
Hypothesis B : bracketed src L.
Variable ts : list tok.
Hypothesis Pl : placed ts [] (items L).

Lemma guarded_not p : guarded p = false -> p <> Some (W T_I) /\ p <> Some (M T_PRIVATE_END_TENSE).
Proof. intro H. split; intros ->; discriminate. Qed.

Lemma closed_cut m e K bo ke : (forall w p l, w = T_BO \/ w = T_KE ->
    stands (match w with T_BO => bo | _ => ke end) p l = link_then m e w p l) ->
  bracket m = true -> bracket e = true ->
  Q K (items L) [] -> a_sel K (M m) = true -> a_al K (M m) = false -> (forall i, a_fin K i = true -> i = M e) ->
  forall pre0 x post a b, L = rev pre0 ++ x :: post -> item_of x = M m -> straddle_closed m e (x :: post) = Ok (Some (a, b)) ->
  exists a', a = x :: a' /\ post = a' ++ b /\ calm (M m) true (pcore (x :: pre0)) (items a') = true /\
    forall p w, w = T_BO \/ w = T_KE -> true && guarded p = false ->
      (stands (match w with T_BO => bo | _ => ke end) p (M m :: core (items post)) <-> leads w (core (items b))).
Proof.
  intros Hst Bm Be HQ Sm Am F pre0 x post a b E Ex Es.
  destruct (closed_al L _ _ _ _ _ _ K HQ E Es Sm Am F) as (x' & a' & -> & El & _ & Al & St). injection El as <- El.
  exists a'. split; [reflexivity|]. split; [exact El|]. split; [eapply calm_all; eassumption|].
  intros p w Hw G. rewrite (Hst w p _ Hw). specialize (St Bm Be).
  rewrite items_cons, Ex, core_cons in St by exact Bm. split.
  - intros (_ & _ & r & S & Ld). rewrite <- (stretch_det _ _ _ _ _ S St). exact Ld.
  - intros Ld. destruct (guarded_not p G) as (N1 & N2). split; [exact N1|]. split; [exact N2|]. eauto.
Qed.

Lemma over_nai l d e : over [T_NAI] l = (d, e) ->
  (exists n, d = [n] /\ l = n :: e /\ item_of n = W T_NAI) \/
  (d = [] /\ e = l /\ match l with n :: _ => item_of n <> W T_NAI | [] => True end).
Proof.
  cbn [over]. destruct l as [|n l]; [intro H; injection H as <- <-; right; auto|].
  destruct (cmtest n T_NAI) eqn:E; intro H; injection H as <- <-.
  - left. exists n. apply cmtest_item in E. auto.
  - right. repeat split. intro K. apply cmtest_item in K. congruence.
Qed.

Lemma core_words ws l : forallb (w_in ws) l = true -> core l = l.
Proof.
  induction l as [|i l IH]; intro H; [reflexivity|]. cbn in H. apply andb_true_iff in H. destruct H as [Hi H].
  rewrite core_cons by (destruct i; try reflexivity; discriminate). rewrite IH by exact H. reflexivity.
Qed.

Lemma open_cut m c bo ke : (forall w p l, w = T_BO \/ w = T_KE ->
    stands (match w with T_BO => bo | _ => ke end) p l = conn_then m c w l) ->
  bracket m = true -> w_in [T_NA; T_SE] (W c) = false ->
  forall pre0 x post a b, L = rev pre0 ++ x :: post -> item_of x = M m -> straddle_open m c (x :: post) = Ok (Some (a, b)) ->
  exists a', a = x :: a' /\ post = a' ++ b /\ calm (M m) false (pcore (x :: pre0)) (items a') = true /\
    forall p w, w = T_BO \/ w = T_KE -> false && guarded p = false ->
      (stands (match w with T_BO => bo | _ => ke end) p (M m :: core (items post)) <-> leads w (core (items b))).
Proof.
  intros Hst Bm Nc pre0 x post a b E Ex Es. unfold straddle_open in Es.
  rewrite (proj2 (mkrtest_item x m) Ex) in Es. destruct (over [T_NA; T_SE] post) as [u [|y b1]] eqn:Eo; [discriminate|].
  destruct (cmtest y c) eqn:Ey; [|discriminate]. apply cmtest_item in Ey. destruct (over [T_NAI] b1) as [d e] eqn:Ed.
  injection Es as <- <-. destruct (over_ok _ _ _ _ Eo) as (-> & Hu). exists (u ++ y :: d). split; [reflexivity|].
  assert (Eb1 : b1 = d ++ e) by (apply over_ok in Ed; apply Ed). split; [rewrite <- app_assoc, Eb1; reflexivity|].
  assert (Nu : ~ In (W c) (items u)).
  { intro K. rewrite forallb_forall in Hu. apply Hu in K. congruence. }
  assert (Hd : forallb (fun i => match i with W _ => true | _ => false end) (items (u ++ y :: d)) = true).
  { rewrite items_app, forallb_app, items_cons. cbn [forallb]. rewrite Ey. apply over_ok in Ed. destruct Ed as [_ Ed].
    apply andb_true_iff. split; [|cbn [andb]]; (eapply forallb_forall; intros i Hi).
    - rewrite forallb_forall in Hu. apply Hu in Hi. destruct i; try discriminate. reflexivity.
    - rewrite forallb_forall in Ed. apply Ed in Hi. destruct i; try discriminate. reflexivity. }
  split; [eapply calm_all; [exact Hd|reflexivity]|].
  intros p w Hw _. rewrite (Hst w p _ Hw). rewrite items_app, items_cons, Ey, core_app, core_cons by reflexivity.
  rewrite (core_words _ _ Hu).
  assert (Nw : w <> T_NAI) by (destruct Hw; subst w; discriminate).
  assert (X : conn_then m c w (M m :: items u ++ W c :: core (items b1)) <->
              leads w (core (items b1)) \/ exists r', core (items b1) = W T_NAI :: r' /\ leads w r').
  { split.
    - intros (a0 & r & E0 & N0 & Hr). injection E0 as E0. destruct (first_split _ _ _ _ _ E0 Nu N0) as [_ ->]. exact Hr.
    - intros Hr. exists (items u), (core (items b1)). auto. }
  rewrite X. clear X. destruct (over_nai _ _ _ Ed) as [(n & -> & -> & En)|(-> & -> & Hn)].
  - rewrite items_cons, En, core_cons by reflexivity. split.
    + intros [K|(r' & K & Ld)]; [destruct (leads_nai w (core (items e))); [contradiction|contradiction]|]. injection K as <-. exact Ld.
    + intro Ld. right. eauto.
  - split; [|auto]. intros [K|(r' & K & Ld)]; [exact K|]. exfalso.
    assert (E1 : L = rev (y :: rev u ++ x :: pre0) ++ b1).
    { rewrite E. cbn [rev]. rewrite rev_app_distr, rev_involutive. cbn [rev]. rewrite <- !app_assoc. reflexivity. }
    destruct (next_raw L ts Pl _ _ _ _ E1 K) as (n & l' & -> & En & _).
    + intro t. apply no_stand. vm_compute. reflexivity.
    + contradiction.
Qed.

Lemma jek_deco out : categorize_jek_kebo L = Ok out -> deco [T_PRIVATE_JEK_BO; T_PRIVATE_JEK_KE] [] (items L) (items out).
Proof.
  intro H. assert (Hc := closed_cut T_PRIVATE_START_JEK T_PRIVATE_END_JEK Kjek T_PRIVATE_JEK_BO T_PRIVATE_JEK_KE ltac:(intros w p l [-> | ->]; reflexivity) eq_refl eq_refl ltac:(apply B) eq_refl eq_refl (hd_is _)).
  assert (Ho : okhead (M T_PRIVATE_START_JEK) true) by (repeat split; try reflexivity; try discriminate; auto).
  destruct (kebo_deco src L B ts Pl T_PRIVATE_START_JEK T_PRIVATE_JEK_BO T_PRIVATE_JEK_KE straddle_jek true eq_refl (fun _ => or_introl eq_refl) Ho jek_of Hc _ [] [] L out eq_refl eq_refl H) as (o & -> & D). exact D.
Qed.
Lemma joik_deco out : categorize_joik_kebo L = Ok out -> deco [T_PRIVATE_JOIK_BO; T_PRIVATE_JOIK_KE] [] (items L) (items out).
Proof.
  intro H. assert (Hc := closed_cut T_PRIVATE_START_JOIK T_PRIVATE_END_JOIK Kjoik T_PRIVATE_JOIK_BO T_PRIVATE_JOIK_KE ltac:(intros w p l [-> | ->]; reflexivity) eq_refl eq_refl ltac:(apply B) eq_refl eq_refl (hd_is _)).
  assert (Ho : okhead (M T_PRIVATE_START_JOIK) true) by (repeat split; try reflexivity; try discriminate; auto).
  destruct (kebo_deco src L B ts Pl T_PRIVATE_START_JOIK T_PRIVATE_JOIK_BO T_PRIVATE_JOIK_KE straddle_joik true eq_refl (fun _ => or_intror eq_refl) Ho joik_of Hc _ [] [] L out eq_refl eq_refl H) as (o & -> & D). exact D.
Qed.
Lemma ek_deco out : categorize_ek_kebo L = Ok out -> deco [T_PRIVATE_EK_BO; T_PRIVATE_EK_KE] [] (items L) (items out).
Proof.
  intro H. assert (Hc := open_cut T_PRIVATE_START_EK T_A T_PRIVATE_EK_BO T_PRIVATE_EK_KE ltac:(intros w p l [-> | ->]; reflexivity) eq_refl eq_refl).
  assert (Ho : okhead (M T_PRIVATE_START_EK) false) by (repeat split; try reflexivity; try discriminate; right; split; discriminate).
  destruct (kebo_deco src L B ts Pl T_PRIVATE_START_EK T_PRIVATE_EK_BO T_PRIVATE_EK_KE (straddle_open T_PRIVATE_START_EK T_A) false eq_refl (fun H => match diff_false_true H with end) Ho ek_of Hc _ [] [] L out eq_refl eq_refl H) as (o & -> & D). exact D.
Qed.
Lemma gihek_deco out : categorize_gihek_kebo L = Ok out -> deco [T_PRIVATE_GIHEK_BO; T_PRIVATE_GIHEK_KE] [] (items L) (items out).
Proof.
  intro H. assert (Hc := open_cut T_PRIVATE_START_GIHEK T_GIhA T_PRIVATE_GIHEK_BO T_PRIVATE_GIHEK_KE ltac:(intros w p l [-> | ->]; reflexivity) eq_refl eq_refl).
  assert (Ho : okhead (M T_PRIVATE_START_GIHEK) false) by (repeat split; try reflexivity; try discriminate; right; split; discriminate).
  destruct (kebo_deco src L B ts Pl T_PRIVATE_START_GIHEK T_PRIVATE_GIHEK_BO T_PRIVATE_GIHEK_KE (straddle_open T_PRIVATE_START_GIHEK T_GIhA) false eq_refl (fun H => match diff_false_true H with end) Ho gihek_of Hc _ [] [] L out eq_refl eq_refl H) as (o & -> & D). exact D.
Qed.

(* ---- pairs of words ---- *)
Lemma pair_deco a b m : (forall p l, stands m p l = pair a b l) -> (forall t p l, ~ stands t p (W b :: l)) ->
  forall post pre0, L = rev pre0 ++ post -> deco [m] (pcore pre0) (items post) (items (pair_pass a b m post)).
Proof.
  intros Hst Nb. induction post as [|x post IH]; intros pre0 E; [constructor|]. cbn [pair_pass].
  assert (E' : L = rev (x :: pre0) ++ post) by (rewrite rev_mid; exact E). specialize (IH _ E').
  destruct (cmtest x a) eqn:Ex; cbn [andb].
  - apply cmtest_item in Ex. assert (Cx : counts (item_of x) = true) by (rewrite Ex; reflexivity).
    rewrite pcore_cons in IH by exact Cx.
    assert (X : match post with y :: _ => cmtest y b | [] => false end = true <->
                stands m (hd_error (pcore pre0)) (item_of x :: core (items post))).
    { rewrite Hst, Ex. split.
      - destruct post as [|y post]; [discriminate|]. intro K. apply cmtest_item in K. exists (core (items post)).
        rewrite items_cons, K, core_cons by reflexivity. reflexivity.
      - intros (r & K). injection K as K. destruct (next_raw L ts Pl _ _ _ _ E' K) as (y & l' & -> & Ey & _); [intro t; apply Nb|].
        apply cmtest_item. exact Ey. }
    destruct (match post with y :: _ => cmtest y b | [] => false end).
    + rewrite !items_cons. apply d_put; [exact Cx|left; reflexivity|apply X; reflexivity|exact IH].
    + rewrite !items_cons. apply d_not; [exact Cx| |exact IH]. intros t [<-|[]] K. apply X in K. discriminate.
  - rewrite !items_cons. rewrite pcore_step in IH. destruct (counts (item_of x)) eqn:Cx; [|apply d_skip; assumption].
    apply d_not; [exact Cx| |exact IH]. intros t [<-|[]] K. rewrite Hst in K. apply pair_head, cmtest_item in K. congruence.
Qed.

(* ---- numbers ---- *)
Lemma number_node_item y : number_node y = numeral (item_of y).
Proof. unfold number_node, numeral, item_of. destruct (dat y); reflexivity. Qed.

Lemma over_number_split l a b : over_number l = (a, b) ->
  l = a ++ b /\ forallb numeral (items a) = true /\ match b with y :: _ => numeral (item_of y) = false | [] => True end.
Proof.
  revert a b. induction l as [|y l IH]; intros a b H; cbn [over_number] in H.
  - injection H as <- <-. auto.
  - rewrite number_node_item in H. destruct (numeral (item_of y)) eqn:Ny.
    + destruct (over_number l) as [a0 b0]. injection H as <- <-. destruct (IH _ _ eq_refl) as (-> & F & Hb).
      rewrite items_cons. cbn [forallb]. rewrite Ny. auto.
    + injection H as <- <-. auto.
Qed.

Lemma numeral_counts i : numeral i = true -> counts i = true.
Proof. destruct i; try reflexivity. discriminate. Qed.

Lemma core_numerals l : forallb numeral l = true -> core l = l.
Proof.
  induction l as [|i l IH]; intro H; [reflexivity|]. cbn in H. apply andb_true_iff in H. destruct H as [Hi H].
  rewrite core_cons by (apply numeral_counts; exact Hi). rewrite IH by exact H. reflexivity.
Qed.

Lemma number_run w A r : forallb numeral A = true -> A <> [] -> numeral (W w) = false ->
  match r with i :: _ => numeral i = false | [] => True end ->
  forall p, number_then w p (A ++ r) -> hd_error r = Some (W w).
Proof.
  intros F N Nw Hr p (_ & a & r' & E & _ & Fa). clear N. revert a E Fa. induction A as [|i A IH]; intros a E Fa.
  - cbn [app] in E. destruct a as [|j a]; cbn [app] in E; rewrite E in *; [reflexivity|]. cbn in Fa. rewrite Hr in Fa. discriminate.
  - cbn in F. apply andb_true_iff in F. destruct F as [Fi F]. destruct a as [|j a]; cbn [app] in E; injection E as E0 E; [congruence|].
    cbn in Fa. apply andb_true_iff in Fa. destruct Fa as [_ Fa]. exact (IH F a E Fa).
Qed.

(* the tail of a run has nothing to mark *)
Lemma deco_tail c m : (forall p l, stands m p l = number_then c p l) -> forall A p l l', forallb numeral A = true ->
  (exists j q, p = j :: q /\ numeral j = true) -> deco [m] (rev A ++ p) l l' -> deco [m] p (A ++ l) (A ++ l').
Proof.
  intros Hst. induction A as [|i A IH]; intros p l l' F (j & q & -> & Nj) D; [exact D|].
  cbn in F. apply andb_true_iff in F. destruct F as [Fi F]. cbn [app]. apply d_not; [apply numeral_counts; exact Fi| |].
  - intros t [<-|[]] K. rewrite Hst in K. destruct K as (K & _). specialize (K _ eq_refl). congruence.
  - apply IH; [exact F|eauto|]. cbn [rev] in D. rewrite <- app_assoc in D. exact D.
Qed.

(* a run after which the number word does not come *)
Lemma deco_run c m : (forall p l, stands m p l = number_then c p l) -> numeral (W c) = false -> forall A p l l', forallb numeral A = true ->
  (A <> [] -> match core l with i :: _ => numeral i = false /\ i <> W c | [] => True end) ->
  deco [m] (rev A ++ p) l l' -> deco [m] p (A ++ l) (A ++ l').
Proof.
  intros Hst Nc [|i A] p l l' F H D; [exact D|]. assert (F0 := F). cbn in F. apply andb_true_iff in F. destruct F as [Fi F].
  cbn [app]. apply d_not; [apply numeral_counts; exact Fi| |].
  - intros t [<-|[]] K. rewrite Hst in K. specialize (H ltac:(discriminate)).
    rewrite core_app, (core_numerals A F) in K. change (i :: A ++ core l) with ((i :: A) ++ core l) in K.
    apply number_run in K; auto; [|discriminate|].
    + destruct (core l); [discriminate|]. injection K as ->. destruct H as [_ H]. contradiction.
    + destruct (core l); [exact I|apply H].
  - apply (deco_tail c); auto; [eauto|]. cbn [rev] in D. rewrite <- app_assoc in D. exact D.
Qed.

Lemma number_deco c m : (forall p l, stands m p l = number_then c p l) -> numeral (W c) = false -> (forall t p l, ~ stands t p (W c :: l)) ->
  forall post pre b a b0, L = rev (a ++ b0) ++ post -> pre = a ++ b -> over_number pre = (a, b) -> over_number (a ++ b0) = (a, b0) ->
  exists l', number_pass c m pre post = rev b ++ l' /\ deco [m] (pcore b0) (items (rev a ++ post)) (items l').
Proof.
  intros Hst Nc Ns. induction post as [|x post IH]; intros pre b a b0 E Ep Eo Eo0; cbn [number_pass].
  { exists (rev a). subst pre. rewrite rev_app_distr. split; [reflexivity|]. rewrite app_nil_r, <- (app_nil_r (items (rev a))).
    destruct (over_number_split _ _ _ Eo) as (_ & Fa & _).
    apply (deco_run c); auto; [|intros _; exact I|constructor]. rewrite items_rev. rewrite forallb_forall in *. intros i Hi. apply Fa, in_rev, Hi. }
  destruct (over_number_split _ _ _ Eo) as (_ & Fa & Hb). destruct (over_number_split _ _ _ Eo0) as (_ & _ & Hb0).
  assert (Fr : forallb numeral (items (rev a)) = true).
  { rewrite items_rev. rewrite forallb_forall in *. intros i Hi. apply Fa, in_rev, Hi. }
  assert (Erp : rev (items (rev a)) ++ pcore b0 = pcore (a ++ b0)).
  { rewrite items_rev, rev_involutive. unfold pcore. rewrite items_app, core_app, (core_numerals _ Fa). reflexivity. }
  assert (Ex1 : L = rev (x :: a ++ b0) ++ post) by (rewrite rev_mid; exact E).
  destruct (cmtest x c) eqn:Ex.
  - apply cmtest_item in Ex. assert (Nx : number_node x = false) by (rewrite number_node_item, Ex; exact Nc).
    assert (Cx : counts (item_of x) = true) by (rewrite Ex; reflexivity).
    assert (On : forall q, over_number (x :: q) = ([], x :: q)) by (intro q; cbn [over_number]; rewrite Nx; reflexivity).
    rewrite Eo. destruct a as [|y a].
    + cbn [app] in *. subst pre. destruct (IH (x :: b) (x :: b) [] (x :: b0)) as (l' & El & D); cbn [app]; auto.
      exists (x :: l'). split; [rewrite El; apply rev_mid|]. cbn [rev app] in D |- *. rewrite !items_cons.
      rewrite pcore_cons in D by exact Cx. apply d_not; [exact Cx| |exact D].
      intros t [<-|[]] K. rewrite Hst in K. apply number_then_head in K. rewrite Ex in K. congruence.
    + set (a1 := y :: a) in *. set (q := marker m b :: b).
      destruct (IH (x :: a1 ++ q) (x :: a1 ++ q) [] (x :: a1 ++ b0)) as (l' & El & D); cbn [app]; auto.
      exists (marker m b :: rev a1 ++ x :: l'). split.
      { unfold a1 in *. rewrite El. rewrite rev_mid, rev_app_distr. unfold q. cbn [rev]. rewrite <- !app_assoc. reflexivity. }
      cbn [rev app] in D. rewrite pcore_cons in D by exact Cx.
      assert (D1 : deco [m] (pcore (a1 ++ b0)) (items (x :: post)) (items (x :: l'))).
      { rewrite !items_cons. apply d_not; [exact Cx| |exact D]. intros t [<-|[]] K. rewrite Hst in K. apply number_then_head in K.
        rewrite Ex in K. congruence. }
      rewrite items_cons, !items_app. cbn [item_of marker dat].
      assert (Ea : exists i r, items (rev a1) = i :: r).
      { destruct (items (rev a1)) as [|i r] eqn:K; [|eauto]. apply (f_equal (@List.length item)) in K. unfold items in K.
        rewrite map_length, rev_length in K. discriminate. }
      destruct Ea as (i & r & Ea). rewrite Ea in Fr, Erp |- *. cbn in Fr. apply andb_true_iff in Fr. destruct Fr as [Fi Fr].
      assert (Hp : forall j, hd_error (pcore b0) = Some j -> numeral j = false).
      { intros j Hj. destruct b0 as [|z b1]; [discriminate|]. destruct (counts (item_of z)) eqn:Cz.
        - rewrite pcore_cons in Hj by exact Cz. injection Hj as <-. exact Hb0.
        - rewrite pcore_step, Cz in Hj. destruct (item_of z) as [t| |t|] eqn:Ez; cbn in Cz; try discriminate.
          assert (Ez2 : L = rev b1 ++ z :: rev a1 ++ x :: post).
          { rewrite E, rev_app_distr. cbn [rev]. rewrite <- !app_assoc. reflexivity. }
          destruct (single_at L ts Pl _ _ _ _ Ez2 Ez Cz) as (_ & S & _).
          rewrite items_app, Ea, core_app, core_cons in S by (apply numeral_counts; exact Fi). cbn [app] in S.
          assert (Bf := stands_before _ _ _ _ S). destruct (numeral j) eqn:Nj; [|reflexivity]. exfalso. clear - S Bf Fi Nj Hj.
          destruct i as [w| |w|]; cbn in Fi; try discriminate; destruct t; cbn in Bf; try discriminate;
            try (destruct w; discriminate); cbn [stands] in S; destruct S as (K & _); specialize (K _ Hj); congruence. }
      cbn [app]. apply d_put; [apply numeral_counts; exact Fi|left; reflexivity| |].
      * rewrite Hst. split; [exact Hp|]. exists (i :: r), (core (items post)).
        rewrite core_app, (core_numerals r Fr), items_cons, Ex, core_cons by reflexivity. cbn [forallb]. rewrite Fi, Fr. repeat split. discriminate.
      * apply (deco_tail c); auto; [eauto|]. cbn [rev] in Erp. rewrite <- app_assoc in Erp. cbn [app] in Erp. rewrite Erp. exact D1.
  - destruct (numeral (item_of x)) eqn:Nx.
    + destruct (IH (x :: pre) b (x :: a) b0) as (l' & El & D); auto.
      * cbn [app]. rewrite Ep. reflexivity.
      * cbn [over_number]. rewrite number_node_item, Nx, Eo. reflexivity.
      * cbn [app over_number]. rewrite number_node_item, Nx, Eo0. reflexivity.
      * exists l'. split; [exact El|]. cbn [rev] in D. rewrite <- app_assoc in D. exact D.
    + assert (On : forall q, over_number (x :: q) = ([], x :: q)) by (intro q; cbn [over_number]; rewrite number_node_item, Nx; reflexivity).
      destruct (IH (x :: pre) (x :: pre) [] (x :: a ++ b0)) as (l' & El & D); cbn [app]; auto.
      exists (rev a ++ x :: l'). split; [rewrite El, rev_mid, Ep, rev_app_distr, <- app_assoc; reflexivity|].
      cbn [rev app] in D. rewrite !items_app, !items_cons. apply (deco_run c); auto.
      * intro Na. destruct (counts (item_of x)) eqn:Cx.
        -- rewrite core_cons by exact Cx. split; [exact Nx|]. intro K. apply cmtest_item in K. congruence.
        -- rewrite core_skip by exact Cx. destruct (item_of x) as [t| |t|] eqn:Ei; cbn in Cx; try discriminate.
           destruct (single_at L ts Pl _ _ _ _ E Ei Cx) as (_ & S & _). destruct (core (items post)) as [|i r]; [exact I|].
           split; [|intros ->; exact (Ns _ _ _ S)]. destruct (numeral i) eqn:Ni; [|reflexivity]. exfalso.
           assert (Hj : exists j, hd_error (pcore (a ++ b0)) = Some j /\ numeral j = true).
           { destruct a as [|y a]; [contradiction|]. cbn [items map forallb] in Fa. apply andb_true_iff in Fa. destruct Fa as [Fy _].
             exists (item_of y). cbn [app]. rewrite pcore_cons by (apply numeral_counts; exact Fy). auto. }
           destruct Hj as (j & Hj & Nj). assert (Bf := stands_before _ _ _ _ S). clear - S Bf Ni Nj Hj.
           destruct i as [w| |w|]; cbn in Ni; try discriminate; destruct t; cbn in Bf; try discriminate;
             try (destruct w; discriminate); cbn [stands] in S; destruct S as (K & _); specialize (K _ Hj); congruence.
      * rewrite Erp. rewrite pcore_step in D. destruct (counts (item_of x)) eqn:Cx; [|apply d_skip; assumption].
        apply d_not; [exact Cx| |exact D]. intros t [<-|[]] K. rewrite Hst in K. apply number_then_head in K. congruence.
Qed.

End In_list.

(* ---- i with a connective ---- *)
Lemma ijek_deco : forall post pre p l0, forallb counts l0 = true -> deco [T_PRIVATE_I_BO] p l0 (items post) ->
  match pre with y :: _ => mkrtest y T_PRIVATE_I_BO = false | [] => True end ->
  exists l', ijekjoik_pass pre post = rev pre ++ l' /\ deco [T_PRIVATE_I_JEKJOIK] p (items post) (items l').
Proof.
  intros post. remember (List.length post) as n eqn:En. revert post En. induction n as [n IH] using lt_wf_ind.
  intros post En pre p l0 C D Hp. destruct post as [|x post].
  { exists []. rewrite app_nil_r. split; [reflexivity|constructor]. }
  rewrite items_cons in D. inversion D as [|? i l l' C' D'|? t i l l' Ci I St D' E1 E2 E3|? i l l' Ci N D']; subst.
  - cbn in C. rewrite C' in C. discriminate.
  - destruct I as [<-|[]].
    match goal with K : i :: l' = items post |- _ => symmetry in K; apply items_inv in K; rename K into E4 end. destruct E4 as (y & post' & -> & Ey & Er). cbn [ijekjoik_pass].
    assert (Mx : mkrtest x T_PRIVATE_I_BO = true) by (apply mkrtest_item; auto).
    assert (Hx : cmtest x T_I = false) by (apply (cm_false _ _ (M T_PRIVATE_I_BO)); [auto|discriminate]). rewrite Hx, Mx. cbn [andb negb].
    rewrite andb_false_r. cbn [andb]. cbn in C. apply andb_true_iff in C. destruct C as [_ C].
    destruct (IH (List.length post') ltac:(cbn; lia) post' eq_refl (y :: x :: pre) (i :: p) l C) as (l2 & El & D2).
    { rewrite Er. exact D'. }
    { cbn [stands] in St. apply i_bo_head in St. destruct (mkrtest y T_PRIVATE_I_BO) eqn:K; [|reflexivity].
      apply mkrtest_item in K. congruence. }
    exists (x :: y :: l2). split; [rewrite El, !rev_mid; reflexivity|].
    assert (Co : core (items post') = core l) by (rewrite Er; eapply deco_core; [|exact D']; intros t [<-|[]]; reflexivity).
    rewrite !items_cons. apply mkrtest_item in Mx. rewrite Mx. apply d_skip; [reflexivity|]. rewrite Ey. apply d_not; [exact Ci| |exact D2].
    intros t [<-|[]] K. rewrite Co in K. cbn [stands] in K, St. destruct K as (_ & K). contradiction.
  - cbn in C. apply andb_true_iff in C. destruct C as [_ C]. cbn [ijekjoik_pass].
    assert (Hm : negb match pre with y :: _ => mkrtest y T_PRIVATE_I_BO | [] => false end = true).
    { destruct pre as [|y pre]; [reflexivity|]. rewrite Hp. reflexivity. }
    rewrite Hm, andb_true_r.
    assert (Co : core (items post) = core l) by (eapply deco_core; [|exact D']; intros t [<-|[]]; reflexivity).
    assert (Cl : core l = l) by (clear - C; induction l as [|i l IH]; [reflexivity|]; cbn in C; apply andb_true_iff in C; destruct C;
      rewrite core_cons by assumption; rewrite IH by assumption; reflexivity).
    assert (Hx : match x :: pre with y :: _ => mkrtest y T_PRIVATE_I_BO = false | [] => True end).
    { destruct (mkrtest x T_PRIVATE_I_BO) eqn:K; [|reflexivity]. apply mkrtest_item in K. rewrite K in Ci. discriminate. }
    assert (Nx : match post with y :: _ => mkrtest y T_PRIVATE_START_JEK || mkrtest y T_PRIVATE_START_JOIK | [] => false end = true <->
                 exists r, core (items post) = M T_PRIVATE_START_JEK :: r \/ core (items post) = M T_PRIVATE_START_JOIK :: r).
    { rewrite Co, Cl. destruct post as [|y post]; cbn [items map] in D'.
      - inversion D'. split; [discriminate|]. intros (r & [K|K]); discriminate.
      - inversion D' as [|? ? ? ? Cy|? t ? ? ? Cy I2 S2|? ? ? ? Cy]; subst.
        + cbn in C. rewrite Cy in C. discriminate.
        + destruct I2 as [<-|[]]. cbn [stands] in S2. apply i_bo_head in S2. subst. split.
          * intro K. apply orb_true_iff in K. destruct K as [K|K]; apply mkrtest_item in K; congruence.
          * intros (r & [K|K]); congruence.
        + split.
          * intro K. apply orb_true_iff in K. destruct K as [K|K]; apply mkrtest_item in K; rewrite K; eauto.
          * intros (r & [K|K]); injection K as K _; apply mkrtest_item in K; rewrite K; auto using orb_true_r. }
    destruct (cmtest x T_I) eqn:Ex.
    + apply cmtest_item in Ex. cbn [andb].
      assert (St : stands T_PRIVATE_I_JEKJOIK (hd_error p) (item_of x :: core (items post)) <->
                   match post with y :: _ => mkrtest y T_PRIVATE_START_JEK || mkrtest y T_PRIVATE_START_JOIK | [] => false end = true).
      { rewrite Nx. cbn [stands]. unfold i_link. rewrite Ex. split.
        - intros ((r & [K|K]) & _); injection K as K; eauto.
        - intros (r & K). split; [exists r; destruct K as [-> | ->]; auto|]. rewrite Co, <- Ex. apply (N T_PRIVATE_I_BO). left. reflexivity. }
      destruct (match post with y :: _ => mkrtest y T_PRIVATE_START_JEK || mkrtest y T_PRIVATE_START_JOIK | [] => false end).
      * destruct (IH (List.length post) ltac:(cbn; lia) post eq_refl (x :: marker T_PRIVATE_I_JEKJOIK (x :: post) :: pre) (item_of x :: p) l C D' Hx) as (l2 & El & D2).
        exists (marker T_PRIVATE_I_JEKJOIK (x :: post) :: x :: l2). split; [rewrite El, !rev_mid; reflexivity|].
        rewrite !items_cons. apply d_put; [exact Ci|left; reflexivity|apply St; reflexivity|exact D2].
      * destruct (IH (List.length post) ltac:(cbn; lia) post eq_refl (x :: pre) (item_of x :: p) l C D' Hx) as (l2 & El & D2).
        exists (x :: l2). split; [rewrite El, rev_mid; reflexivity|]. rewrite !items_cons. apply d_not; [exact Ci| |exact D2].
        intros t [<-|[]] K. apply St in K. discriminate.
    + cbn [andb]. destruct (IH (List.length post) ltac:(cbn; lia) post eq_refl (x :: pre) (item_of x :: p) l C D' Hx) as (l2 & El & D2).
      exists (x :: l2). split; [rewrite El, rev_mid; reflexivity|]. rewrite !items_cons. apply d_not; [exact Ci| |exact D2].
      intros t [<-|[]] K. cbn [stands] in K. apply i_link_head, cmtest_item in K. congruence.
Qed.
