From Coq Require Import String List NArith Bool Arith Lia.
From Verif Require Import Base TokData TokModel ErasureProofs DfaModel DfaSpec NfaData CategModel CategSpec.
From Verif Require Import CategProofs CategProofs2 CategProofs3 CategProofs4 CategProofs5 AheadSpec AheadProofs.
Import ListNotations.
Open Scope N_scope.
Open Scope list_scope.

(* ---- a pass that adds the markers [ts]; [p]: the words and brackets before, nearest first ---- *)
Inductive deco (ts : list tok) : list item -> list item -> list item -> Prop :=
| d_nil p : deco ts p [] []
| d_skip p i l l' : counts i = false -> deco ts p l l' -> deco ts p (i :: l) (i :: l')
| d_put p t i l l' : counts i = true -> In t ts -> stands t (hd_error p) (i :: core l) ->
    deco ts (i :: p) l l' -> deco ts p (i :: l) (M t :: i :: l')
| d_not p i l l' : counts i = true -> (forall t, In t ts -> ~ stands t (hd_error p) (i :: core l)) ->
    deco ts (i :: p) l l' -> deco ts p (i :: l) (i :: l').

Definition all_single (ts : list tok) : Prop := forall t, In t ts -> bracket t = false.

Lemma deco_core ts p l l' : all_single ts -> deco ts p l l' -> core l' = core l.
Proof.
  intros S. induction 1 as [p|p i l l' C D IH|p t i l l' C I St D IH|p i l l' C N D IH].
  - reflexivity.
  - rewrite !core_skip by exact C. exact IH.
  - rewrite core_skip by (apply S; exact I). rewrite !core_cons by exact C. rewrite IH. reflexivity.
  - rewrite !core_cons by exact C. rewrite IH. reflexivity.
Qed.

(* the single markers in a list are well placed, each directly before a word or bracket;
   [p]: the words and brackets before *)
Inductive placed (ts : list tok) : list item -> list item -> Prop :=
| pl_nil p : placed ts p []
| pl_single p t i l : bracket t = false -> In t ts -> counts i = true -> stands t (hd_error p) (i :: core l) ->
    placed ts (i :: p) l -> placed ts p (M t :: i :: l)
| pl_other p i l : counts i = true -> placed ts (i :: p) l -> placed ts p (i :: l).

Lemma placed_counts l : forallb counts l = true -> forall p, placed [] p l.
Proof.
  induction l as [|i l IH]; intros H p; [constructor|]. cbn in H. apply andb_true_iff in H. destruct H.
  apply pl_other; auto.
Qed.

Lemma deco_placed ts ts' : all_single ts' -> (forall t, In t ts -> ~ In t ts') ->
  forall p l, placed ts p l -> forall l', deco ts' p l l' -> placed (ts ++ ts') p l'.
Proof.
  intros S Dis p l H. induction H as [p|p t i l B I C St H IH|p i l C H IH]; intros l' D.
  - inversion D. constructor.
  - inversion D as [|? ? ? q C' D'|? ? ? ? ? C'|? ? ? ? C']; subst; try (cbn in C'; congruence).
    inversion D' as [|? ? ? q' C2 D2|? t' ? ? q' C2 I2 St2 D2|? ? ? q' C2 N2 D2]; subst.
    + congruence.
    + exfalso. rewrite (stands_det _ _ _ _ _ St St2) in I. exact (Dis _ I I2).
    + apply pl_single; auto; [apply in_or_app; auto|]. rewrite (deco_core _ _ _ _ S D2). exact St.
  - inversion D as [|? ? ? q C2 D2|? t' ? ? q C2 I2 St2 D2|? ? ? q C2 N2 D2]; subst.
    + congruence.
    + apply pl_single; auto; [apply in_or_app; auto|]. rewrite (deco_core _ _ _ _ S D2). exact St2.
    + apply pl_other; auto.
Qed.

(* ---- stretches without places for a marker ---- *)

Definition quiet (hi : item) (guard : bool) (prev : option item) (i : item) : bool :=
  negb (item_eqb i hi) || (guard && match prev with Some j => item_eqb j (W T_I) || item_eqb j (M T_PRIVATE_END_TENSE) | None => false end).
Fixpoint calm (hi : item) (guard : bool) (p s : list item) : bool :=
  match s with
  | [] => true
  | i :: s => if counts i then quiet hi guard (hd_error p) i && calm hi guard (i :: p) s else calm hi guard p s
  end.

Lemma item_eqb_eq i j : item_eqb i j = true <-> i = j.
Proof.
  destruct i, j; cbn; split; intro H; try discriminate; try reflexivity; try (apply tok_eqb_eq in H; congruence);
    injection H as ->; apply tok_eqb_refl.
Qed.
Lemma item_eqb_refl i : item_eqb i i = true.
Proof. apply item_eqb_eq. reflexivity. Qed.

Lemma calm_app hi g s : forall p s', calm hi g p (s ++ s') = calm hi g p s && calm hi g (rev (core s) ++ p) s'.
Proof.
  induction s as [|i s IH]; intros p s'; [reflexivity|]. cbn [app calm]. destruct (counts i) eqn:C.
  - rewrite IH, core_cons by exact C. cbn [rev]. rewrite <- app_assoc, andb_assoc. reflexivity.
  - rewrite IH, core_skip by exact C. reflexivity.
Qed.

Lemma calm_all hi g (f : item -> bool) s : forallb f s = true -> f hi = false -> forall p, calm hi g p s = true.
Proof.
  intros F N. induction s as [|i s IH]; intro p; [reflexivity|]. cbn in F. apply andb_true_iff in F. destruct F as [Fi F].
  cbn [calm]. destruct (counts i); [|auto]. rewrite IH by exact F. rewrite andb_true_r. unfold quiet.
  destruct (item_eqb i hi) eqn:E; [|reflexivity]. apply item_eqb_eq in E. congruence.
Qed.

(* the markers of a pass stand only before [hi], and with [guard] not after i or a tense *)
Definition pass_of (ts : list tok) (hi : item) (guard : bool) : Prop :=
  forall t p i l, In t ts -> stands t p (i :: l) -> quiet hi guard p i = false.

Lemma deco_calm ts hi g : pass_of ts hi g -> forall s p l l', calm hi g p s = true ->
  deco ts (rev (core s) ++ p) l l' -> deco ts p (s ++ l) (s ++ l').
Proof.
  intro P. induction s as [|i s IH]; intros p l l' H D; [exact D|]. cbn [calm] in H. cbn [app]. destruct (counts i) eqn:C.
  - apply andb_true_iff in H. destruct H as [Q H]. apply d_not; [exact C| |].
    + intros t I St. rewrite (P _ _ _ _ I St) in Q. discriminate.
    + apply IH; [exact H|]. rewrite core_cons in D by exact C. cbn [rev] in D. rewrite <- app_assoc in D. exact D.
  - apply d_skip; [exact C|]. apply IH; [exact H|]. rewrite core_skip in D by exact C. exact D.
Qed.

(* ---- scans ---- *)

Lemma seek_spec t : forall l a b, seek t l = Some (a, b) ->
  exists a' m, a = a' ++ [m] /\ l = a' ++ m :: b /\ item_of m = M t /\ ~ In (M t) (items a').
Proof.
  induction l as [|y l IH]; intros a b H; cbn [seek] in H; [discriminate|]. destruct (mkrtest y t) eqn:E.
  - injection H as <- <-. exists [], y. apply mkrtest_item in E. repeat split; auto.
  - destruct (seek t l) as [[a0 b0]|]; [|discriminate]. injection H as <- <-.
    destruct (IH _ _ eq_refl) as (a' & m & -> & -> & Em & N). exists (y :: a'), m. repeat split; auto.
    rewrite items_cons. intros [K|K]; [|contradiction]. apply mkrtest_item in K. congruence.
Qed.

Lemma region_al K L pre x l t a b : Q K (items L) [] -> L = rev pre ++ x :: l ->
  a_sel K (item_of x) = true -> a_al K (item_of x) = false -> seek t l = Some (a, b) ->
  (forall i, a_fin K i = true -> i = M t) -> forallb (a_al K) (items a) = true.
Proof.
  intros H -> S A E F. rewrite items_app, items_cons in H.
  destruct (H _ _ _ eq_refl S) as (u & g1 & g2 & v & E1 & E2 & O). apply a_shape in O.
  destruct O as (s & r & e & Eg & _ & Al & Fe). apply F in Fe. subst e. destruct (seek_spec _ _ _ _ E) as (a' & m & -> & -> & Em & N).
  assert (g1 = []).
  { destruct g1 as [|s' g1]; [reflexivity|]. cbn in Eg. injection Eg as _ Eg. rewrite forallb_forall in Al.
    rewrite (Al (item_of x)) in A; [discriminate|]. rewrite <- Eg. apply in_elt. }
  subst g1. cbn in Eg. injection Eg as _ ->. rewrite forallb_app in Al. apply andb_true_iff in Al. destruct Al as [Al Ae].
  rewrite items_app, forallb_app. cbn [items map]. cbn [forallb]. rewrite Em. cbn [forallb] in Ae. rewrite Ae, andb_true_r.
  rewrite items_app, items_cons, Em, <- app_assoc in E2. cbn [app] in E2.
  destruct (split_mid _ _ _ _ _ _ E2) as [(z & Ez & _)|[(-> & _)|(z & -> & _)]].
  - exfalso. apply N. rewrite Ez. apply in_elt.
  - exact Al.
  - rewrite forallb_app in Al. apply andb_true_iff in Al. apply Al.
Qed.

(* a scan seen on the words and brackets *)
Lemma stretch_core s e x a m b : bracket s = true -> bracket e = true -> item_of x = M s -> item_of m = M e -> ~ In (M e) (items a) ->
  stretch s e (core (items (x :: a ++ m :: b))) (core (items b)).
Proof.
  intros Bs Be Ex Em N. rewrite items_cons, items_app, items_cons, Ex, Em. rewrite core_cons by exact Bs. rewrite core_app, core_cons by exact Be.
  constructor. intro K. apply N. apply core_in. exact K.
Qed.

Lemma placed_at ts t v : bracket t = false -> forall u p, placed ts p (u ++ M t :: v) ->
  In t ts /\ stands t (hd_error (rev (core u) ++ p)) (core v) /\ exists i v', v = i :: v' /\ counts i = true.
Proof.
  intros B u. remember (List.length u) as n eqn:En. revert u En.
  induction n as [n IH] using lt_wf_ind. intros u En p H. destruct u as [|j u].
  - cbn [app] in H. inversion H as [|? ? i l B' I C St H'|? ? ? C]; subst.
    + repeat split; auto; [|eauto]. rewrite core_cons by exact C. exact St.
    + cbn in C. congruence.
  - cbn [app] in H. inversion H as [|? t' i l B' I C St H' E1 Ej|? ? ? C H' E1 Ej].
    + rename H0 into E2. destruct u as [|i' u]; cbn [app] in E2.
      * injection E2 as -> _. cbn in C. congruence.
      * injection E2 as -> ->. rewrite core_skip by exact B'. rewrite core_cons by exact C.
        cbn [rev]. rewrite <- app_assoc. apply (IH (List.length u)) with (u := u); auto; rewrite En; cbn; lia.
    + subst. rewrite core_cons by exact C. cbn [rev]. rewrite <- app_assoc. apply (IH (List.length u)) with (u := u); auto; rewrite En; cbn; lia.
Qed.

Definition okhead (hi : item) (g : bool) : Prop :=
  t_al hi = false /\ hi <> M T_PRIVATE_START_TENSE /\ ck_al jek hi = false /\ ck_al joik hi = false /\
  (g = true \/ (hi <> M T_PRIVATE_START_JEK /\ hi <> M T_PRIVATE_START_JOIK)).

Lemma no_stand i : forallb (fun t => negb (before_item t i)) all_toks = true -> forall t p l, ~ stands t p (i :: l).
Proof.
  intros H t p l S. apply stands_before in S. rewrite forallb_forall in H. specialize (H t (all_toks_in t)). rewrite S in H. discriminate.
Qed.

Lemma no_stand_link i : i = M T_PRIVATE_START_JEK \/ i = M T_PRIVATE_START_JOIK -> forall t p l,
  p = Some (W T_I) \/ p = Some (M T_PRIVATE_END_TENSE) -> ~ stands t p (i :: l).
Proof.
  intros Hi t p l Hp S. assert (Bf := stands_before _ _ _ _ S).
  destruct Hi as [-> | ->]; destruct t; cbn in Bf; try discriminate; cbn [stands] in S; destruct S as (N1 & N2 & _);
    destruct Hp; contradiction.
Qed.

Lemma closed_some m e l a b : straddle_closed m e l = Ok (Some (a, b)) ->
  exists x a' z, a = x :: a' ++ [z] /\ l = x :: a' ++ z :: b /\ item_of x = M m /\ item_of z = M e /\ ~ In (M e) (items a') /\
    seek e (a' ++ z :: b) = Some (a' ++ [z], b).
Proof.
  unfold straddle_closed. destruct l as [|x l]; [discriminate|]. destruct (mkrtest x m) eqn:Ex; [|discriminate].
  destruct (seek e l) as [[a0 b0]|] eqn:Es; [|discriminate]. intro H. injection H as <- <-.
  destruct (seek_spec _ _ _ _ Es) as (a' & z & -> & -> & Ez & N). exists x, a', z. apply mkrtest_item in Ex. repeat split; auto.
Qed.

Lemma closed_none m e x l : straddle_closed m e (x :: l) = Ok None -> item_of x <> M m.
Proof.
  cbn. destruct (mkrtest x m) eqn:Ex; [destruct (seek e l) as [[? ?]|]; discriminate|]. intros _ K. apply mkrtest_item in K. congruence.
Qed.

Lemma tags_inv l r : tags l r -> stretch T_PRIVATE_START_TENSE T_PRIVATE_END_TENSE l r \/
  exists r1 r2, stretch T_PRIVATE_START_TENSE T_PRIVATE_END_TENSE l r1 /\ link r1 r2 /\ tags r2 r.
Proof. intros [? ? H|? r1 r2 ? H1 H2 H3]; eauto 6. Qed.

Section In_list.
Variable src : source.
Variable L : list node.
Hypothesis B : bracketed src L.
Variable ts : list tok.
Hypothesis Pl : placed ts [] (items L).

Definition pcore (pre : list node) : list item := core (items pre).

Lemma pcore_cons x pre : counts (item_of x) = true -> pcore (x :: pre) = item_of x :: pcore pre.
Proof. intro C. unfold pcore. rewrite items_cons, core_cons by exact C. reflexivity. Qed.

Lemma pcore_rev_app a pre : pcore (rev a ++ pre) = rev (core (items a)) ++ pcore pre.
Proof. unfold pcore. rewrite items_app, core_app, items_rev, core_rev. reflexivity. Qed.

Lemma single_at pre m l t : L = rev pre ++ m :: l -> item_of m = M t -> bracket t = false ->
  In t ts /\ stands t (hd_error (pcore pre)) (core (items l)) /\ exists i v, items l = i :: v /\ counts i = true.
Proof.
  intros E Em Bt. rewrite E, items_app, items_cons, Em in Pl. destruct (placed_at ts t (items l) Bt _ _ Pl) as (I & S & C).
  rewrite items_rev, core_rev, rev_involutive, app_nil_r in S. auto.
Qed.

Lemma next_raw pre l i r : L = rev pre ++ l -> core (items l) = i :: r -> (forall t, ~ stands t (hd_error (pcore pre)) (i :: r)) ->
  exists x l', l = x :: l' /\ item_of x = i /\ core (items l') = r.
Proof.
  intros E Ec N. destruct l as [|x l]; [discriminate|]. rewrite items_cons in Ec. destruct (counts (item_of x)) eqn:C.
  - rewrite core_cons in Ec by exact C. injection Ec as <- <-. eauto.
  - rewrite core_skip in Ec by exact C. destruct (item_of x) as [t| |t|] eqn:Ex; cbn in C; try discriminate.
    destruct (single_at pre x l t E Ex C) as (_ & S & _). rewrite Ec in S. destruct (N _ S).
Qed.

Ltac nostand := let t := fresh in intro t; apply no_stand; vm_compute; reflexivity.

Definition after_i_tense (pre : list node) : Prop :=
  hd_error (pcore pre) = Some (W T_I) \/ hd_error (pcore pre) = Some (M T_PRIVATE_END_TENSE).

Lemma closed_al pre l a b m e K : Q K (items L) [] -> L = rev pre ++ l -> straddle_closed m e l = Ok (Some (a, b)) ->
  a_sel K (M m) = true -> a_al K (M m) = false -> (forall i, a_fin K i = true -> i = M e) ->
  exists x a', a = x :: a' /\ l = a ++ b /\ item_of x = M m /\ forallb (a_al K) (items a') = true /\
    (bracket m = true -> bracket e = true -> stretch m e (core (items l)) (core (items b))).
Proof.
  intros H E Es Sm Am F. destruct (closed_some _ _ _ _ _ Es) as (x & a' & z & -> & El & Ex & Ez & N & Sk).
  exists x, (a' ++ [z]). split; [reflexivity|]. split; [rewrite El; cbn; rewrite <- app_assoc; reflexivity|]. split; [exact Ex|]. split.
  - rewrite El in E. eapply (region_al K L pre x); eauto; rewrite Ex; assumption.
  - intros Bm Be. rewrite El. apply stretch_core; assumption.
Qed.

Lemma calm_link hi g pre x a' k : okhead hi g -> after_i_tense pre -> (k = jek \/ k = joik) -> item_of x = M (ck_start k) ->
  forallb (ck_al k) (items a') = true -> calm hi g (pcore pre) (items (x :: a')) = true.
Proof.
  intros (_ & _ & O1 & O2 & O3) Hp Hk Ex Al. rewrite items_cons, Ex. cbn [calm].
  assert (C : counts (M (ck_start k)) = true) by (destruct Hk as [-> | ->]; reflexivity). rewrite C.
  rewrite (calm_all hi g (ck_al k)) by (destruct Hk as [-> | ->]; assumption). rewrite andb_true_r. unfold quiet.
  destruct O3 as [-> | [O3 O4]].
  - cbn [andb]. assert (X : match hd_error (pcore pre) with Some j => item_eqb j (W T_I) || item_eqb j (M T_PRIVATE_END_TENSE) | None => false end = true).
    { destruct Hp as [-> | ->]; reflexivity. }
    rewrite X. apply orb_true_r.
  - destruct (item_eqb _ hi) eqn:E; [|reflexivity]. apply item_eqb_eq in E. destruct Hk as [-> | ->]; cbn in E; congruence.
Qed.

Lemma link_step pre l s1 s2 : L = rev pre ++ l -> after_i_tense pre -> straddle_jek l = Ok s1 ->
  match s1 with Some _ => Ok s1 | None => straddle_joik l end = Ok s2 ->
  match s2 with
  | Some (a, b) => l = a ++ b /\ link (core (items l)) (core (items b)) /\
      forall hi g, okhead hi g -> calm hi g (pcore pre) (items a) = true
  | None => forall r, ~ link (core (items l)) r
  end.
Proof.
  intros E Hp E1 E2. destruct B as (_ & HJ & HO). destruct s1 as [[a b]|].
  - injection E2 as <-. destruct (closed_al _ _ _ _ _ _ Kjek HJ E E1 eq_refl eq_refl (hd_is _)) as (x & a' & -> & El & Ex & Al & St).
    split; [exact El|]. split; [left; auto|]. intros hi g O. eapply (calm_link _ _ _ _ _ jek); eauto.
  - destruct s2 as [[a b]|].
    + destruct (closed_al _ _ _ _ _ _ Kjoik HO E E2 eq_refl eq_refl (hd_is _)) as (x & a' & -> & El & Ex & Al & St).
      split; [exact El|]. split; [right; auto|]. intros hi g O. eapply (calm_link _ _ _ _ _ joik); eauto.
    + intros r Hl. destruct (link_head _ _ Hl) as (q & Hq).
      assert (Hx : exists x l' i, l = x :: l' /\ item_of x = i /\ (i = M T_PRIVATE_START_JEK \/ i = M T_PRIVATE_START_JOIK)).
      { destruct Hq as [Hq|Hq]; destruct (next_raw _ _ _ _ E Hq) as (x & l' & -> & Ex & _);
          try (intros t; apply no_stand_link; auto); eauto 8. }
      destruct Hx as (x & l' & i & -> & Ex & Hi). apply closed_none in E1. apply closed_none in E2. destruct Hi; congruence.
Qed.

Lemma result_spec pre l w : L = rev pre ++ l -> w = T_BO \/ w = T_KE ->
  (get_lookahead_result l = (match w with T_BO => FOUND_BO | _ => FOUND_KE end) <-> exists r, core (items l) = W w :: r).
Proof.
  intros E Hw. split.
  - intro H. destruct l as [|x l]; [destruct Hw as [-> | ->]; discriminate|]. unfold get_lookahead_result in H.
    exists (core (items l)). rewrite items_cons.
    assert (Ex : item_of x = W w).
    { apply cmtest_item. destruct (cmtest x T_BO) eqn:E1; destruct Hw as [-> | ->]; try discriminate; auto;
        destruct (cmtest x T_KE) eqn:E2; try discriminate; auto. }
    rewrite Ex. apply core_cons. reflexivity.
  - intros (r & H). destruct (next_raw _ _ _ _ E H) as (x & l' & -> & Ex & _).
    { destruct Hw as [-> | ->]; nostand. }
    unfold get_lookahead_result. apply cmtest_item in Ex. destruct Hw as [-> | ->]; rewrite Ex; [reflexivity|].
    apply cmtest_item in Ex. rewrite (cm_false _ T_BO _ Ex) by discriminate. reflexivity.
Qed.

Lemma look_spec : forall fuel pre l r c d, L = rev pre ++ l -> lookahead fuel l = Ok (r, c, d) ->
  l = c ++ d /\
  (forall w, w = T_BO \/ w = T_KE -> (r = (match w with T_BO => FOUND_BO | _ => FOUND_KE end) <-> leads w (core (items l)))) /\
  forall hi g, okhead hi g -> calm hi g (pcore pre) (items c) = true.
Proof.
  induction fuel as [|fuel IH]; intros pre l r c d E H; cbn [lookahead] in H; [discriminate|].
  destruct l as [|x l].
  { injection H as <- <- <-. split; [reflexivity|]. split; [|reflexivity]. intros w Hw. split; [destruct Hw as [-> | ->]; discriminate|].
    intros [(q & K)|(q & K)]; [discriminate|]. apply tags_head in K. destruct K as (q' & K). discriminate. }
  destruct (mkrtest x T_PRIVATE_START_TENSE) eqn:Ex.
  - apply mkrtest_item in Ex. destruct (seek T_PRIVATE_END_TENSE l) as [[a b]|] eqn:Es; [|discriminate].
    destruct B as (HT & _). assert (Al : forallb t_al (items a) = true).
    { eapply (region_al (Ktense src) L pre x); eauto; try (rewrite Ex; reflexivity). intros i. apply hd_is. }
    destruct (seek_spec _ _ _ _ Es) as (a' & m & -> & -> & Em & N). clear Es.
    assert (St : stretch T_PRIVATE_START_TENSE T_PRIVATE_END_TENSE (core (items (x :: a' ++ m :: b))) (core (items b)))
      by (apply stretch_core; auto).
    set (pb := m :: rev a' ++ x :: pre).
    assert (Eb : L = rev pb ++ b).
    { rewrite E. unfold pb. cbn [rev]. rewrite rev_app_distr, rev_involutive. cbn [rev]. rewrite <- !app_assoc. cbn [app].
      rewrite <- ?app_assoc. reflexivity. }
    assert (Pb : after_i_tense pb) by (right; unfold pb; rewrite pcore_cons, Em by (rewrite Em; reflexivity); reflexivity).
    assert (Epb : pcore pb = rev (core (items (x :: a' ++ [m]))) ++ pcore pre).
    { rewrite <- pcore_rev_app. unfold pb. cbn [rev]. rewrite rev_app_distr. cbn [rev app]. rewrite <- app_assoc. reflexivity. }
    assert (Ca : forall hi g, okhead hi g -> calm hi g (pcore pre) (items (x :: a' ++ [m])) = true).
    { intros hi g (O1 & O2 & _). rewrite items_cons, Ex. cbn [calm]. change (counts (M T_PRIVATE_START_TENSE)) with true. cbn iota.
      rewrite (calm_all hi g t_al) by assumption. rewrite andb_true_r. unfold quiet.
      destruct (item_eqb _ hi) eqn:Ei; [|reflexivity]. apply item_eqb_eq in Ei. congruence. }
    assert (Hd : forall w, ~ (exists q, core (items (x :: a' ++ m :: b)) = W w :: q)).
    { intros w (q & K). rewrite items_cons, Ex, core_cons in K by reflexivity. discriminate. }
    destruct (straddle_jek b) as [s1| | | |] eqn:E1; cbn [obind] in H; try discriminate.
    destruct (match s1 with Some _ => Ok s1 | None => straddle_joik b end) as [s2| | | |] eqn:E2; cbn [obind] in H; try discriminate.
    assert (LS := link_step pb b s1 s2 Eb Pb E1 E2). destruct s2 as [[c' d']|].
    + destruct LS as (Ebd & Lk & Cc). destruct (match d' with y :: _ => mkrtest y T_PRIVATE_START_TENSE | [] => false end) eqn:Ed.
      * destruct (lookahead fuel d') as [[[r0 e0] f0]| | | |] eqn:El; cbn [obind] in H; try discriminate. injection H as <- <- <-.
        destruct (IH (rev c' ++ pb) d' r0 e0 f0) as (-> & R & Ce); [|exact El|].
        { rewrite rev_app_distr, rev_involutive, <- app_assoc, <- Ebd. exact Eb. }
        split; [cbn [app]; rewrite Ebd, <- !app_assoc; reflexivity|]. split.
        -- intros w Hw. rewrite (R w Hw). split.
           ++ intros [(q & K)|(q & K)].
              ** destruct (e0 ++ f0) as [|y d0]; [discriminate|]. apply mkrtest_item in Ed.
                 rewrite items_cons, Ed, core_cons in K by reflexivity. discriminate.
              ** right. exists q. eapply tags_more; eauto.
           ++ intros [K|(q & K)]; [destruct (Hd w K)|]. right. exists q. destruct (tags_inv _ _ K) as [S1|(r1 & r2 & S1 & L1 & T1)].
              ** rewrite <- (stretch_det _ _ _ _ _ S1 St) in Lk. apply link_head in Lk. destruct Lk as (? & [Lk|Lk]); discriminate.
              ** rewrite (stretch_det _ _ _ _ _ S1 St) in L1. rewrite (link_det _ _ _ L1 Lk) in T1. exact T1.
        -- intros hi g O. change (x :: (a' ++ [m]) ++ c' ++ e0) with ((x :: a' ++ [m]) ++ c' ++ e0). rewrite items_app, calm_app, (Ca hi g O). rewrite items_app, calm_app, <- Epb, (Cc hi g O).
           rewrite <- pcore_rev_app. apply Ce. exact O.
      * injection H as <- <- <-. split; [cbn; rewrite <- app_assoc; reflexivity|]. split; [|exact Ca].
        intros w Hw. split; [destruct Hw as [-> | ->]; discriminate|]. intros [K|(q & K)]; [destruct (Hd w K)|]. exfalso.
        destruct (tags_inv _ _ K) as [S1|(r1 & r2 & S1 & L1 & T1)].
        -- rewrite <- (stretch_det _ _ _ _ _ S1 St) in Lk. apply link_head in Lk. destruct Lk as (? & [Lk|Lk]); discriminate.
        -- rewrite (stretch_det _ _ _ _ _ S1 St) in L1. rewrite (link_det _ _ _ L1 Lk) in T1. apply tags_head in T1. destruct T1 as (q' & T1).
           assert (Ed' : L = rev (rev c' ++ pb) ++ d') by (rewrite rev_app_distr, rev_involutive, <- app_assoc, <- Ebd; exact Eb).
           destruct (next_raw _ _ _ _ Ed' T1) as (y & d0 & -> & Ey & _); [nostand|]. apply mkrtest_item in Ey. congruence.
    + injection H as <- <- <-. split; [cbn; rewrite <- app_assoc; reflexivity|]. split; [|exact Ca].
      intros w Hw. rewrite (result_spec pb b w Eb Hw). split.
      * intros (q & K). right. exists q. apply tags_one. rewrite <- K. exact St.
      * intros [K|(q & K)]; [destruct (Hd w K)|]. exists q. destruct (tags_inv _ _ K) as [S1|(r1 & r2 & S1 & L1 & T1)].
        -- symmetry. eapply stretch_det; eauto.
        -- exfalso. rewrite (stretch_det _ _ _ _ _ S1 St) in L1. exact (LS _ L1).
  - injection H as <- <- <-. split; [reflexivity|]. split; [|reflexivity]. intros w Hw. rewrite (result_spec pre _ w E Hw). split.
    + intros K. left. exact K.
    + intros [K|(q & K)]; [exact K|]. exfalso. apply tags_head in K. destruct K as (q' & K).
      destruct (next_raw pre (x :: l) _ _ E K) as (y & l' & Ey & Ei & _); [nostand|]. injection Ey as <- <-.
      apply mkrtest_item in Ei. congruence.
Qed.

End In_list.
