From Coq Require Import String List NArith Bool Arith Lia.
From Verif Require Import Base TokData TokModel ErasureProofs DfaModel DfaSpec NfaData CategModel CategSpec.
From Verif Require Import DfaTables DfaTablesProofs DfaBuildProofs.
From Verif Require Import CategProofs CategProofs2 CategProofs3 CategProofs4 CategProofs5 CategProofs6.
From Verif Require Import AheadSpec AheadProofs AheadProofs2 AheadProofs3 AheadProofs4.
Import ListNotations.
Open Scope N_scope.
Open Scope list_scope.

Lemma placed_in ts p l : placed ts p l -> forall t, In (M t) l -> bracket t = true \/ In t ts.
Proof.
  induction 1 as [p|p t' i l B I C St H IH|p i l C H IH]; intros t K.
  - destruct K.
  - destruct K as [K|[K|K]]; [injection K as <-; auto|subst i; auto|auto].
  - destruct K as [K|K]; [subst i; auto|auto].
Qed.

Lemma and_core t l : ~ In (M t) l -> core_and t l = core l.
Proof.
  intro N. unfold core_and, core. apply filter_ext_in. intros i Hi. destruct (item_eqb i (M t)) eqn:E; [|apply orb_false_r].
  apply item_eqb_eq in E. subst i. contradiction.
Qed.

Lemma and_cons t i l : counts i = true -> core_and t (i :: l) = i :: core_and t l.
Proof. intro C. unfold core_and. cbn [filter]. rewrite C. reflexivity. Qed.
Lemma and_same t l : core_and t (M t :: l) = M t :: core_and t l.
Proof. unfold core_and. cbn [filter]. rewrite item_eqb_refl, orb_true_r. reflexivity. Qed.
Lemma and_other t i l : counts i = false -> i <> M t -> core_and t (i :: l) = core_and t l.
Proof.
  intros C N. unfold core_and. cbn [filter]. rewrite C. destruct (item_eqb i (M t)) eqn:E; [|reflexivity].
  apply item_eqb_eq in E. contradiction.
Qed.

Lemma deco_put ts t : all_single ts -> In t ts -> forall p l l', deco ts p l l' -> ~ In (M t) l -> put t p (core l) (core_and t l').
Proof.
  intros S I p l l' D. induction D as [p|p i l l' C D IH|p t' i l l' C I' St D IH|p i l l' C N D IH]; intro Nt.
  - constructor.
  - rewrite core_skip by exact C. rewrite and_other; [apply IH; intro K; apply Nt; right; exact K|exact C|].
    intros ->. apply Nt. left. reflexivity.
  - assert (IH' := IH (fun K => Nt (or_intror K))). rewrite core_cons by exact C. destruct (tok_eqb t' t) eqn:E.
    + apply tok_eqb_eq in E. subst t'. rewrite and_same, and_cons by exact C. apply put_here; assumption.
    + assert (Ne : t' <> t) by (intros ->; rewrite tok_eqb_refl in E; discriminate).
      rewrite and_other by (try apply S; auto; congruence). rewrite and_cons by exact C. apply put_not; [|exact IH'].
      intro K. apply Ne. eapply stands_det; eassumption.
  - rewrite core_cons, and_cons by exact C. apply put_not; [auto|]. apply IH. intro K. apply Nt. right. exact K.
Qed.

Lemma deco_other ts t : all_single ts -> ~ In t ts -> forall p l l', deco ts p l l' -> core_and t l' = core_and t l.
Proof.
  intros S N p l l' D. induction D as [p|p i l l' C D IH|p t' i l l' C I St D IH|p i l l' C Ns D IH].
  - reflexivity.
  - unfold core_and in *. cbn [filter]. rewrite IH. reflexivity.
  - rewrite and_other by (try apply S; auto; congruence). rewrite !and_cons by exact C. rewrite IH. reflexivity.
  - rewrite !and_cons by exact C. rewrite IH. reflexivity.
Qed.

(* the markers [ts] are in place, on the words and brackets [c] *)
Definition state (ts : list tok) (c l : list item) : Prop :=
  placed ts [] l /\ core l = c /\ forall t, In t ts -> put t [] c (core_and t l).

Definition apart (ts ts' : list tok) : bool :=
  forallb (fun t => negb (bracket t) && negb (existsb (tok_eqb t) ts)) ts'.

Lemma state_step ts ts' c l l' : state ts c l -> deco ts' [] l l' -> apart ts ts' = true -> state (ts ++ ts') c l'.
Proof.
  intros (P & C & H) D A. unfold apart in A. rewrite forallb_forall in A.
  assert (S : all_single ts').
  { intros t I. apply A in I. apply andb_true_iff in I. destruct I as [I _]. apply negb_true_iff in I. exact I. }
  assert (Dj : forall t, In t ts' -> ~ In t ts).
  { intros t I K. apply A in I. apply andb_true_iff in I. destruct I as [_ I]. apply negb_true_iff in I.
    assert (X : existsb (tok_eqb t) ts = true) by (apply existsb_exists; exists t; split; [exact K|apply tok_eqb_refl]). congruence. }
  split; [|split].
  - eapply deco_placed; eauto. intros t I K. exact (Dj t K I).
  - rewrite (deco_core _ _ _ _ S D). exact C.
  - intros t I. apply in_app_iff in I. destruct I as [I|I].
    + rewrite (deco_other ts' t S (fun K => Dj t K I) _ _ _ D). apply H. exact I.
    + rewrite <- C. apply (deco_put ts'); auto. intro K. destruct (placed_in _ _ _ P _ K) as [X|X]; [rewrite (S t I) in X; discriminate|].
      exact (Dj t I X).
Qed.

Definition S6 := T_PRIVATE_START_GEK :: S5.

Theorem singles_ok l out : forallb wordy l = true -> categorize_tokens l = Ok out -> singles_exact (map item_of out).
Proof.
  intros Hw E. destruct stag_described as (src & Hs).
  destruct (categorize_tenses_ok src (stag_runs src Hs) (stag_has_default src Hs) l) as [(mid & E0 & Tm & Nc)|(E0 & C)].
  2:{ unfold categorize_tokens in E. rewrite E0 in E. cbn [obind] in E. discriminate E. }
  clear Hs. destruct (tense_own src l mid Tm Hw) as (T0 & O0 & M0).
  destruct (stage1 src mid T0 O0) as (l1 & l5 & E1 & E5 & B5 & A5 & H5 & U5 & O5 & M5).
  destruct (stage2 src l5 B5 A5 H5 U5 O5) as (l6 & E6 & A6 & _).
  assert (O6 : forallb (only (among S6)) (items l6) = true).
  { destruct (gek_pass_ok src l5 [] B5) as (l6' & E6' & G). cbn [rev app] in G. unfold categorize_gek in E6.
    rewrite E6 in E6'. injection E6' as <-. only_tac G. }
  assert (C6 : forallb counts (items l6) = true).
  { rewrite forallb_forall in O6 |- *. intros i Hi. revert i Hi. 
    assert (X : forall i, only (among S6) i = true -> counts i = true) by (apply items_imp; vm_compute; reflexivity). auto. }
  destruct (ibo_pass_ok src (S (List.length l6)) [] l6 (proj1 A6) (Nat.lt_succ_diag_r _)) as (l7 & E7 & G7).
  cbn [rev app] in G7. assert (A7 : all_kinds src l7) by (revert A6; eapply keep_kinds; [|exact G7]; vm_compute; reflexivity).
  set (l8 := categorize_ijekjoik l7). assert (G8 := ijekjoik_grows l7 []). cbn [rev app] in G8.
  assert (A8 : all_kinds src l8) by (revert A7; eapply keep_kinds; [|exact G8]; vm_compute; reflexivity).
  destruct (kebo_stage_closed src T_PRIVATE_START_JEK T_PRIVATE_END_JEK T_PRIVATE_JEK_BO T_PRIVATE_JEK_KE) with (l := l8) as (l9 & E9 & A9 & M9);
    [vm_compute; reflexivity|vm_compute; reflexivity|apply straddle_jek_ok|exact A8|].
  destruct (kebo_stage src ek ltac:(tidy_tac) T_A T_PRIVATE_EK_BO T_PRIVATE_EK_KE) with (l := l9) as (l10 & E10 & A10 & M10);
    [vm_compute; reflexivity|vm_compute; reflexivity|reflexivity|reflexivity|discriminate|discriminate|intros ? HH; apply HH|exact A9|].
  destruct (kebo_stage_closed src T_PRIVATE_START_JOIK T_PRIVATE_END_JOIK T_PRIVATE_JOIK_BO T_PRIVATE_JOIK_KE) with (l := l10) as (l11 & E11 & A11 & M11);
    [vm_compute; reflexivity|vm_compute; reflexivity|apply straddle_joik_ok|exact A10|].
  destruct (kebo_stage src gihek ltac:(tidy_tac) T_GIhA T_PRIVATE_GIHEK_BO T_PRIVATE_GIHEK_KE) with (l := l11) as (l12 & E12 & A12 & M12);
    [vm_compute; reflexivity|vm_compute; reflexivity|reflexivity|reflexivity|discriminate|discriminate|intros ? HH; apply HH|exact A11|].
  assert (Eo : out = mark_cmavo_before_free (categorize_naku (categorize_nahe (categorize_number_moi
                (categorize_number_roi (categorize_number_mai l12)))))).
  { unfold categorize_tokens in E. rewrite E0 in E. cbn [obind] in E. rewrite E1 in E. cbn [obind] in E. rewrite E5 in E. cbn [obind] in E.
    rewrite E6 in E. cbn [obind] in E. unfold categorize_ibo in E. rewrite E7 in E. cbn [obind] in E. fold l8 in E.
    unfold categorize_jek_kebo, straddle_jek in E. rewrite E9 in E. cbn [obind] in E. unfold categorize_ek_kebo in E.
    cbn [ek ck_start] in E10. rewrite E10 in E. cbn [obind] in E. unfold categorize_joik_kebo, straddle_joik in E. rewrite E11 in E. cbn [obind] in E.
    unfold categorize_gihek_kebo in E. cbn [gihek ck_start] in E12. rewrite E12 in E. cbn [obind] in E. injection E as <-. reflexivity. }
  clear E.
  set (c := core (items l6)).
  assert (S6' : state [] c (items l6)).
  { split; [apply placed_counts; exact C6|]. split; [reflexivity|]. intros t []. }
  destruct (ibo_deco src l6 (proj1 A6) [] (proj1 S6') _ [] [] l6 l7 eq_refl E7) as (o7 & Eo7 & D7). cbn [rev app] in Eo7. subst o7.
  assert (S7 := state_step _ _ _ _ _ S6' D7 eq_refl). cbn [app] in S7.
  destruct (ijek_deco l7 [] [] (items l6) C6 D7 I) as (o8 & Eo8 & D8). cbn [rev app] in Eo8. fold (categorize_ijekjoik l7) in Eo8.
  fold l8 in Eo8. subst o8.
  assert (S8 := state_step _ _ _ _ _ S7 D8 eq_refl). cbn [app] in S8.
  assert (D9 := jek_deco src l8 (proj1 A8) _ (proj1 S8) l9 E9). assert (S9 := state_step _ _ _ _ _ S8 D9 eq_refl). cbn [app] in S9.
  assert (D10 := ek_deco src l9 (proj1 A9) _ (proj1 S9) l10 E10). assert (S10 := state_step _ _ _ _ _ S9 D10 eq_refl). cbn [app] in S10.
  assert (D11 := joik_deco src l10 (proj1 A10) _ (proj1 S10) l11 E11). assert (S11 := state_step _ _ _ _ _ S10 D11 eq_refl). cbn [app] in S11.
  assert (D12 := gihek_deco src l11 (proj1 A11) _ (proj1 S11) l12 E12). assert (S12 := state_step _ _ _ _ _ S11 D12 eq_refl). cbn [app] in S12.
  assert (Nn : forall w, In w [T_MAI; T_ROI; T_MOI; T_BO; T_KU] -> forall t p l, ~ stands t p (W w :: l)).
  { intros w Hw'. repeat (destruct Hw' as [<-|Hw']; [apply no_stand; vm_compute; reflexivity|]). destruct Hw'. }
  assert (Num : forall L ts c0 m, state ts (core (items l6)) (items L) -> (forall p l, stands m p l = number_then c0 p l) -> numeral (W c0) = false ->
     (forall t p l, ~ stands t p (W c0 :: l)) -> deco [m] [] (items L) (items (number_pass c0 m [] L))).
  { intros L ts c0 m St Hst Nm Ns. destruct (number_deco L ts (proj1 St) c0 m Hst Nm Ns L [] [] [] []) as (o & Eo1 & D); auto.
    cbn [rev app] in Eo1. rewrite Eo1. exact D. }
  set (l13 := categorize_number_mai l12) in *.
  assert (D13 : deco [T_PRIVATE_NUMBER_MAI] [] (items l12) (items l13)) by (eapply Num; [exact S12|reflexivity|reflexivity|apply Nn; cbn; auto]).
  assert (S13 := state_step _ _ _ _ _ S12 D13 eq_refl). cbn [app] in S13.
  set (l14 := categorize_number_roi l13) in *.
  assert (D14 : deco [T_PRIVATE_NUMBER_ROI] [] (items l13) (items l14)) by (eapply Num; [exact S13|reflexivity|reflexivity|apply Nn; cbn; auto]).
  assert (S14 := state_step _ _ _ _ _ S13 D14 eq_refl). cbn [app] in S14.
  set (l15 := categorize_number_moi l14) in *.
  assert (D15 : deco [T_PRIVATE_NUMBER_MOI] [] (items l14) (items l15)) by (eapply Num; [exact S14|reflexivity|reflexivity|apply Nn; cbn; auto]).
  assert (S15 := state_step _ _ _ _ _ S14 D15 eq_refl). cbn [app] in S15.
  set (l16 := categorize_nahe l15) in *.
  assert (D16 : deco [T_PRIVATE_NAhE_BO] [] (items l15) (items l16)).
  { apply (pair_deco l15 _ (proj1 S15) T_NAhE T_BO T_PRIVATE_NAhE_BO) with (pre0 := []); [reflexivity|apply Nn; cbn; auto|reflexivity]. }
  assert (S16 := state_step _ _ _ _ _ S15 D16 eq_refl). cbn [app] in S16.
  set (l17 := categorize_naku l16) in *.
  assert (D17 : deco [T_PRIVATE_NA_KU] [] (items l16) (items l17)).
  { apply (pair_deco l16 _ (proj1 S16) T_NA T_KU T_PRIVATE_NA_KU) with (pre0 := []); [reflexivity|apply Nn; cbn; auto 6|reflexivity]. }
  assert (S17 := state_step _ _ _ _ _ S16 D17 eq_refl). cbn [app] in S17.
  rewrite Eo. change (map item_of ?x) with (items x). rewrite free_items. destruct S17 as (P & C & H). split.
  - intros t K. destruct (placed_in _ _ _ P _ K) as [X|X]; [auto|]. right. cbn in X. unfold single_markers. cbn. tauto.
  - intros t K. rewrite C. apply H. unfold single_markers in K. cbn in K |- *. tauto.
Qed.
