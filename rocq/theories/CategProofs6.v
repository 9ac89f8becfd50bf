From Coq Require Import String List NArith Bool Arith Lia.
From Verif Require Import Base TokData TokModel ErasureProofs DfaModel DfaSpec NfaData CategModel CategSpec.
From Verif Require Import DfaTables DfaTablesProofs DfaBuildProofs.
From Verif Require Import CategProofs CategProofs2 CategProofs3 CategProofs4 CategProofs5.
Import ListNotations.
Open Scope N_scope.
Open Scope list_scope.

(* markers that passes after the tense pass may add *)

Lemma near_mw co si bwd mk l out : forallb (fun t => implb (mk t) (not_tense t)) all_toks = true ->
  grows (near co si bwd mk) l out -> marked_with not_tense l out.
Proof.
  intros H. apply grows_mw. intros A t B (Hm & _). revert t Hm. apply toks_imp. exact H.
Qed.

Ltac keep G := eapply (fun F => grows_keeps _ _ _ _ _ _ _ _ F G); [apply foreignb_ok; vm_compute; reflexivity|assumption].
Ltac mw G := eapply near_mw; [|exact G]; vm_compute; reflexivity.

Definition S0 := [T_PRIVATE_START_TENSE; T_PRIVATE_END_TENSE].
Definition S1 := T_PRIVATE_START_JEK :: T_PRIVATE_END_JEK :: S0.
Definition S2 := T_PRIVATE_START_GIHEK :: S1.
Definition S3 := T_PRIVATE_START_EK :: S2.
Definition S4 := T_PRIVATE_START_GUHEK :: S3.
Definition S5 := T_PRIVATE_START_JOIK :: T_PRIVATE_END_JOIK :: S4.

Ltac only_tac G := eapply grows_only; [exact G|eassumption| |]; apply toks_imp; vm_compute; reflexivity.
Ltac none_tac := eapply only_none; [|eassumption]; vm_compute; reflexivity.
Ltac counts_tac := eapply only_counts; [|eassumption]; vm_compute; reflexivity.

Lemma jek_matches : matches jek [jek_conn].
Proof.
  split; [|split; [|split]].
  - intros q [<-|[]]. repeat split. left. reflexivity.
  - intros t H. unfold core_item in H. cbn [jek ck_cores existsb fst] in H. rewrite orb_false_r in H. apply tok_eqb_eq in H. subst t. left. reflexivity.
  - reflexivity.
  - intros e H. injection H as <-. reflexivity.
Qed.

Lemma joik_matches : matches joik joik_conns.
Proof.
  split; [|split; [|split]].
  - intros q [<-|[<-|[]]]; repeat split; [left|right; left]; reflexivity.
  - intros t H. unfold core_item in H. cbn [joik ck_cores existsb fst] in H. rewrite orb_false_r in H. apply orb_true_iff in H.
    destruct H as [H|H]; apply tok_eqb_eq in H; subst t; cbn; auto.
  - reflexivity.
  - intros e H. injection H as <-. reflexivity.
Qed.

(* the connective passes *)
Lemma stage1 src mid : Q (Ktense src) (items mid) [] -> forallb (only (among S0)) (items mid) = true ->
  exists l1 l5, categorize_jek mid = Ok l1 /\
    categorize_joik (categorize_guhek (categorize_ek (categorize_gihek l1))) = Ok l5 /\
    bracketed src l5 /\ Q Kek (items l5) [] /\ Q Kgihek (items l5) [] /\ Q Kguhek (items l5) [] /\
    forallb (only (among S5)) (items l5) = true /\ marked_with not_tense mid l5.
Proof.
  intros T0 O0.
  destruct (closed_pass_grows [jek_conn] (S (List.length mid)) [] mid (Nat.lt_succ_diag_r _)) as (l1 & E1 & G1).
  assert (O1 : forallb (only (among S1)) (items l1) = true) by only_tac G1.
  assert (J1 : Q Kjek (items l1) []).
  { eapply closed_pass_own; [exact jek_matches|exact E1|reflexivity|counts_tac|none_tac|apply Q_nil]. }
  assert (T1 : Q (Ktense src) (items l1) []) by keep G1.
  set (l2 := categorize_gihek l1).
  assert (G2 : grows (near (w_in [T_GIhA]) (w_in [T_SE; T_NA]) false (is_tok T_PRIVATE_START_GIHEK)) l1 l2)
    by exact (open_pass_grows T_GIhA [T_SE; T_NA] T_PRIVATE_START_GIHEK l1 []).
  assert (O2 : forallb (only (among S2)) (items l2) = true) by only_tac G2.
  assert (H2 : Q Kgihek (items l2) []).
  { apply (open_pass_own gihek _ T_GIhA [T_SE; T_NA]); try reflexivity; [|counts_tac|none_tac|apply Q_nil].
    intros t [<-|[<-|[]]]; reflexivity. }
  assert (T2 : Q (Ktense src) (items l2) []) by keep G2.
  assert (J2 : Q Kjek (items l2) []) by keep G2.
  set (l3 := categorize_ek l2).
  assert (G3 : grows (near (w_in [T_A]) (w_in [T_SE; T_NA]) false (is_tok T_PRIVATE_START_EK)) l2 l3)
    by exact (open_pass_grows T_A [T_SE; T_NA] T_PRIVATE_START_EK l2 []).
  assert (O3 : forallb (only (among S3)) (items l3) = true) by only_tac G3.
  assert (A3 : Q Kek (items l3) []).
  { apply (open_pass_own ek _ T_A [T_SE; T_NA]); try reflexivity; [|counts_tac|none_tac|apply Q_nil].
    intros t [<-|[<-|[]]]; reflexivity. }
  assert (T3 : Q (Ktense src) (items l3) []) by keep G3.
  assert (J3 : Q Kjek (items l3) []) by keep G3.
  assert (H3 : Q Kgihek (items l3) []) by keep G3.
  set (l4 := categorize_guhek l3).
  assert (G4 : grows (near (w_in [T_GUhA]) (w_in [T_SE]) false (is_tok T_PRIVATE_START_GUHEK)) l3 l4)
    by exact (open_pass_grows T_GUhA [T_SE] T_PRIVATE_START_GUHEK l3 []).
  assert (O4 : forallb (only (among S4)) (items l4) = true) by only_tac G4.
  assert (U4 : Q Kguhek (items l4) []).
  { apply (open_pass_own guhek _ T_GUhA [T_SE]); try reflexivity; [|counts_tac|none_tac|apply Q_nil].
    intros t [<-|[]]; reflexivity. }
  assert (T4 : Q (Ktense src) (items l4) []) by keep G4.
  assert (J4 : Q Kjek (items l4) []) by keep G4.
  assert (H4 : Q Kgihek (items l4) []) by keep G4.
  assert (A4 : Q Kek (items l4) []) by keep G4.
  destruct (closed_pass_grows joik_conns (S (List.length l4)) [] l4 (Nat.lt_succ_diag_r _)) as (l5 & E5 & G5).
  assert (O5 : forallb (only (among S5)) (items l5) = true) by only_tac G5.
  assert (I5 : Q Kjoik (items l5) []).
  { eapply closed_pass_own; [exact joik_matches|exact E5|reflexivity|counts_tac|none_tac|apply Q_nil]. }
  exists l1, l5. repeat split; try assumption; try (keep G5).
  eapply mw_trans; [mw G1|]. eapply mw_trans; [mw G2|]. eapply mw_trans; [mw G3|]. eapply mw_trans; [mw G4|]. mw G5.
Qed.

Definition all_kinds (src : source) (l : list node) : Prop :=
  bracketed src l /\ Q Kek (items l) [] /\ Q Kgihek (items l) [] /\ Q Kguhek (items l) [] /\ Q Kgek (items l) [].

Definition foreign_all (src : source) (co si : item -> bool) (bwd : bool) (mk : tok -> bool) : bool :=
  foreignb (Ktense src) co si bwd mk && foreignb Kjek co si bwd mk && foreignb Kjoik co si bwd mk
  && foreignb Kek co si bwd mk && foreignb Kgihek co si bwd mk && foreignb Kguhek co si bwd mk
  && foreignb Kgek co si bwd mk.

Lemma keep_kinds src co si bwd mk : foreign_all src co si bwd mk = true ->
  forall l out, grows (near co si bwd mk) l out -> all_kinds src l -> all_kinds src out.
Proof.
  unfold foreign_all. intros F l out G ((H1 & H2 & H3) & H4 & H5 & H6 & H7).
  do 6 (apply andb_true_iff in F; destruct F as [F ?]).
  split; [split; [|split]|split; [|split; [|split]]];
    (eapply (fun F => grows_keeps _ _ _ _ _ _ _ _ F G); [apply foreignb_ok; assumption|assumption]).
Qed.

Lemma stage2 src l5 : bracketed src l5 -> Q Kek (items l5) [] -> Q Kgihek (items l5) [] -> Q Kguhek (items l5) [] ->
  forallb (only (among S5)) (items l5) = true ->
  exists l6, categorize_gek l5 = Ok l6 /\ all_kinds src l6 /\ marked_with not_tense l5 l6.
Proof.
  intros B A H U O. destruct (gek_pass_ok src l5 [] B) as (l6 & E & G). exists l6. cbn [rev app] in G.
  split; [exact E|]. split; [|mw G].
  assert (B6 : bracketed src l6) by (revert B; eapply keep_all; [| | |exact G]; vm_compute; reflexivity).
  split; [exact B6|]. split; [keep G|]. split; [keep G|]. split; [keep G|].
  eapply (gek_pass_own src l5 []); [exact B|exact E|reflexivity|counts_tac|apply Q_nil].
Qed.

Lemma kebo_stage src k T c bo ke : foreign_all src (m_in [ck_start k]) (fun _ => false) false (fun t => tok_eqb t bo || tok_eqb t ke) = true ->
  forallb (fun t => implb (tok_eqb t bo || tok_eqb t ke) (not_tense t)) all_toks = true ->
  ck_cores k = [(c, [T_SE; T_NA], [])] -> ck_end k = None -> c <> T_SE -> c <> T_NA ->
  (forall l, all_kinds src l -> Q (conn k T (both k)) (items l) []) ->
  forall l, all_kinds src l ->
  exists out, kebo_pass (S (List.length l)) (ck_start k) bo ke (straddle_open (ck_start k) c) false [] l = Ok out /\
    all_kinds src out /\ marked_with not_tense l out.
Proof.
  intros F Fm Ec Ee N1 N2 Hk l H.
  destruct (kebo_pass_ok src (ck_start k) bo ke (straddle_open (ck_start k) c) false (all_kinds src)) with
    (fuel := S (List.length l)) (pre := @nil node) (post := l) as (out & E & G).
  - intros L L'. apply keep_kinds. exact F.
  - intros L HL. apply HL.
  - intros L pre x post HL EL Ex. apply (straddle_open_ok k T c L pre x post); auto.
  - exact H.
  - lia.
  - exists out. split; [exact E|]. cbn [rev app] in G. split; [eapply keep_kinds; eauto|]. eapply near_mw; [|exact G]. exact Fm.
Qed.

Lemma kebo_stage_closed src m e bo ke :
  foreign_all src (m_in [m]) (fun _ => false) false (fun t => tok_eqb t bo || tok_eqb t ke) = true ->
  forallb (fun t => implb (tok_eqb t bo || tok_eqb t ke) (not_tense t)) all_toks = true ->
  (forall L pre l, bracketed src L -> L = rev pre ++ l -> cuts (straddle_closed m e) l) ->
  forall l, all_kinds src l ->
  exists out, kebo_pass (S (List.length l)) m bo ke (straddle_closed m e) true [] l = Ok out /\
    all_kinds src out /\ marked_with not_tense l out.
Proof.
  intros F Fm Hc l H.
  destruct (kebo_pass_ok src m bo ke (straddle_closed m e) true (all_kinds src)) with
    (fuel := S (List.length l)) (pre := @nil node) (post := l) as (out & E & G).
  - intros L L'. apply keep_kinds. exact F.
  - intros L HL. apply HL.
  - intros L pre x post (B & _) EL Ex. destruct (Hc L pre (x :: post) B EL) as (r & Er & Hr).
    destruct r as [[a b]|].
    + exists a, b. destruct (Hr _ _ eq_refl). auto.
    + exfalso. clear - Er Ex. unfold straddle_closed in Er. rewrite (proj2 (mkrtest_item x m) Ex) in Er.
      destruct (seek e post) as [[? ?]|]; discriminate.
  - exact H.
  - lia.
  - exists out. split; [exact E|]. cbn [rev app] in G. split; [eapply keep_kinds; eauto|]. eapply near_mw; [|exact G]. exact Fm.
Qed.

Lemma stage3 src l6 : all_kinds src l6 ->
  exists l7 l9 l10 l11 l12, categorize_ibo l6 = Ok l7 /\ categorize_jek_kebo (categorize_ijekjoik l7) = Ok l9 /\
    categorize_ek_kebo l9 = Ok l10 /\ categorize_joik_kebo l10 = Ok l11 /\ categorize_gihek_kebo l11 = Ok l12 /\
    all_kinds src l12 /\ marked_with not_tense l6 l12.
Proof.
  intro A6. destruct (ibo_pass_ok src (S (List.length l6)) [] l6 (proj1 A6) (Nat.lt_succ_diag_r _)) as (l7 & E7 & G7).
  cbn [rev app] in G7. assert (A7 : all_kinds src l7) by (revert A6; eapply keep_kinds; [|exact G7]; vm_compute; reflexivity).
  set (l8 := categorize_ijekjoik l7). assert (G8 := ijekjoik_grows l7 []). cbn [rev app] in G8.
  assert (A8 : all_kinds src l8) by (revert A7; eapply keep_kinds; [|exact G8]; vm_compute; reflexivity).
  destruct (kebo_stage_closed src T_PRIVATE_START_JEK T_PRIVATE_END_JEK T_PRIVATE_JEK_BO T_PRIVATE_JEK_KE) with (l := l8) as (l9 & E9 & A9 & M9);
    [vm_compute; reflexivity|vm_compute; reflexivity|apply straddle_jek_ok|exact A8|].
  destruct (kebo_stage src ek ltac:(tidy_tac) T_A T_PRIVATE_EK_BO T_PRIVATE_EK_KE) with (l := l9) as (l10 & E10 & A10 & M10);
    [vm_compute; reflexivity|vm_compute; reflexivity|reflexivity|reflexivity|discriminate|discriminate|intros ? HH; apply HH|exact A9|].
  destruct (kebo_stage_closed src T_PRIVATE_START_JOIK T_PRIVATE_END_JOIK T_PRIVATE_JOIK_BO T_PRIVATE_JOIK_KE) with (l := l10) as (l11 & E11 & A11 & M11);
    [vm_compute; reflexivity|vm_compute; reflexivity|apply straddle_joik_ok|exact A10|].
  destruct (kebo_stage src gihek ltac:(tidy_tac) T_GIhA T_PRIVATE_GIHEK_BO T_PRIVATE_GIHEK_KE) with (l := l11) as (l12 & E12 & A12 & M12);
    [vm_compute; reflexivity|vm_compute; reflexivity|reflexivity|reflexivity|discriminate|discriminate|intros ? HH; apply HH|exact A11|].
  exists l7, l9, l10, l11, l12. split; [exact E7|]. split; [exact E9|]. split; [exact E10|]. split; [exact E11|].
  split; [exact E12|]. split; [exact A12|].
  eapply mw_trans; [mw G7|]. eapply mw_trans; [mw G8|]. eapply mw_trans; [exact M9|]. eapply mw_trans; [exact M10|].
  eapply mw_trans; [exact M11|]. exact M12.
Qed.

Lemma stage4 src l12 : all_kinds src l12 -> let l17 := categorize_naku (categorize_nahe (categorize_number_moi
    (categorize_number_roi (categorize_number_mai l12)))) in
  all_kinds src l17 /\ marked_with not_tense l12 l17.
Proof.
  intros A12. set (l13 := categorize_number_mai l12). set (l14 := categorize_number_roi l13).
  set (l15 := categorize_number_moi l14). set (l16 := categorize_nahe l15). intro l17.
  assert (G13 := number_pass_grows T_MAI T_PRIVATE_NUMBER_MAI l12 []). cbn [rev app] in G13.
  assert (A13 : all_kinds src l13) by (revert A12; eapply keep_kinds; [|exact G13]; vm_compute; reflexivity).
  assert (G14 := number_pass_grows T_ROI T_PRIVATE_NUMBER_ROI l13 []). cbn [rev app] in G14.
  assert (A14 : all_kinds src l14).
  { destruct A13 as ((H1 & H2 & H3) & H4 & H5 & H6 & H7). split; [split; [|split]|split; [|split; [|split]]]; try (keep G14).
    eapply grows_roi; [exact G14|exact H1]. }
  assert (G15 := number_pass_grows T_MOI T_PRIVATE_NUMBER_MOI l14 []). cbn [rev app] in G15.
  assert (A15 : all_kinds src l15) by (revert A14; eapply keep_kinds; [|exact G15]; vm_compute; reflexivity).
  assert (G16 := pair_pass_grows T_NAhE T_BO T_PRIVATE_NAhE_BO l15 []). cbn [rev app] in G16.
  assert (A16 : all_kinds src l16) by (revert A15; eapply keep_kinds; [|exact G16]; vm_compute; reflexivity).
  assert (G17 := pair_pass_grows T_NA T_KU T_PRIVATE_NA_KU l16 []). cbn [rev app] in G17.
  split; [revert A16; eapply keep_kinds; [|exact G17]; vm_compute; reflexivity|].
  eapply mw_trans; [mw G13|]. eapply mw_trans; [mw G14|]. eapply mw_trans; [mw G15|]. eapply mw_trans; [mw G16|]. mw G17.
Qed.

Lemma Q_belongs K l : Q K l [] -> belongs (a_sel K) (a_occ K) l.
Proof.
  intros H u i v E S. destruct (H u i v E S) as (u' & g1 & g2 & v' & E1 & E2 & O). exists u', g1, g2, v'.
  rewrite app_nil_r in O. auto.
Qed.

Lemma kinds_well src l : all_kinds src l -> well_marked src (items l).
Proof.
  intros ((H1 & H2 & H3) & H4 & H5 & H6 & H7). split; [exact (Q_belongs _ _ H1)|]. split; [|exact (Q_belongs _ _ H7)].
  constructor; [exact (Q_belongs _ _ H2)|]. constructor; [exact (Q_belongs _ _ H3)|].
  constructor; [exact (Q_belongs _ _ H4)|]. constructor; [exact (Q_belongs _ _ H5)|].
  constructor; [exact (Q_belongs _ _ H6)|]. constructor.
Qed.

(* what categorize_tokens does to a sequence of words *)
Theorem categorize_ok src l : read_description stag_desc = Ok src -> forallb wordy l = true ->
  (tense_cut_short src l /\ categorize_tokens l = UB UB_null) \/
  (~ tense_cut_short src l /\ exists mid out, categorize_tokens l = Ok out /\
     tense_marked src l mid /\ marked_with not_tense (map plain mid) (map plain out) /\
     words out = words l /\ well_marked src (items out) /\ free_noted out).
Proof.
  intros Hs Hw. destruct (categorize_tenses_ok src (stag_runs src Hs) (stag_has_default src Hs) l) as [(mid & E & Tm & Nc)|(E & C)].
  2:{ left. split; [exact C|]. unfold categorize_tokens. rewrite E. reflexivity. }
  right. split; [exact Nc|]. destruct (tense_own src l mid Tm Hw) as (T0 & O0 & M0).
  destruct (stage1 src mid T0 O0) as (l1 & l5 & E1 & E5 & B5 & A5 & H5 & U5 & O5 & M5).
  destruct (stage2 src l5 B5 A5 H5 U5 O5) as (l6 & E6 & A6 & M6).
  destruct (stage3 src l6 A6) as (l7 & l9 & l10 & l11 & l12 & E7 & E9 & E10 & E11 & E12 & A12 & M12).
  assert (St4 := stage4 src l12 A12). cbn zeta in St4. set (l17 := categorize_naku _) in St4. destruct St4 as (A17 & M17).
  assert (M : marked_with not_tense mid l17).
  { eapply mw_trans; [exact M5|]. eapply mw_trans; [exact M6|]. eapply mw_trans; [exact M12|]. exact M17. }
  exists mid, (mark_cmavo_before_free l17). split; [|split; [exact Tm|split; [|split; [|split]]]].
  - unfold categorize_tokens. rewrite E. cbn [obind]. rewrite E1. cbn [obind]. rewrite E5. cbn [obind]. rewrite E6. cbn [obind].
    rewrite E7. cbn [obind]. rewrite E9. cbn [obind]. rewrite E10. cbn [obind]. rewrite E11. cbn [obind]. rewrite E12. reflexivity.
  - rewrite free_plain. apply mw_plain. exact M.
  - rewrite <- words_plain, free_plain, words_plain. rewrite (mw_words _ _ _ M), (mw_words _ _ _ M0). reflexivity.
  - rewrite free_items. apply kinds_well. exact A17.
  - apply free_ok. apply (mw_forall _ (fun i => i <> W T_PRIVATE_NUMBER_MAI) _ _ ltac:(discriminate) M).
    apply (mw_forall _ (fun i => i <> W T_PRIVATE_NUMBER_MAI) _ _ ltac:(discriminate) M0).
    apply Forall_forall. intros x Hx. rewrite forallb_forall in Hw. apply wordy_item. auto.
Qed.

(* the parts, one by one *)
Lemma stag_described : exists src, read_description stag_desc = Ok src.
Proof.
  destruct (dfasyn_sized stag_desc stag_tables stag_generated) as (s & E & H);
    try (apply N.leb_le; vm_compute; reflexivity). eauto.
Qed.

Corollary categorize_words l out : forallb wordy l = true ->
  categorize_tokens l = Ok out -> words out = words l.
Proof.
  intros Hw E. destruct stag_described as (src & Hs).
  destruct (categorize_ok src l Hs Hw) as [(_ & E')|(_ & mid & out' & E' & _ & _ & H & _)];
    rewrite E in E'; [inversion E'|injection E' as <-; exact H].
Qed.

Corollary categorize_free l out : forallb wordy l = true ->
  categorize_tokens l = Ok out -> free_noted out.
Proof.
  intros Hw E. destruct stag_described as (src & Hs).
  destruct (categorize_ok src l Hs Hw) as [(_ & E')|(_ & mid & out' & E' & _ & _ & _ & _ & H)];
    rewrite E in E'; [inversion E'|injection E' as <-; exact H].
Qed.

Corollary categorize_tense src l out : read_description stag_desc = Ok src -> forallb wordy l = true ->
  categorize_tokens l = Ok out ->
  exists mid, tense_marked src l mid /\ marked_with not_tense (map plain mid) (map plain out).
Proof.
  intros Hs Hw E. destruct (categorize_ok src l Hs Hw) as [(_ & E')|(_ & mid & out' & E' & H1 & H2 & _)];
    rewrite E in E'; [inversion E'|injection E' as <-; eauto].
Qed.

Corollary categorize_crash src l : read_description stag_desc = Ok src -> forallb wordy l = true ->
  (tense_cut_short src l -> categorize_tokens l = UB UB_null) /\
  (~ tense_cut_short src l -> exists out, categorize_tokens l = Ok out).
Proof.
  intros Hs Hw. destruct (categorize_ok src l Hs Hw) as [(C & E)|(N & mid & out' & E & _)]; split; intro H; try contradiction; eauto.
Qed.

Corollary categorize_marked src l out : read_description stag_desc = Ok src -> forallb wordy l = true ->
  categorize_tokens l = Ok out -> well_marked src (map item_of out).
Proof.
  intros Hs Hw E. destruct (categorize_ok src l Hs Hw) as [(_ & E')|(_ & mid & out' & E' & _ & _ & _ & H & _)];
    rewrite E in E'; [inversion E'|injection E' as <-; exact H].
Qed.

Corollary categorize_total l : forallb wordy l = true ->
  categorize_tokens l = UB UB_null \/ exists out, categorize_tokens l = Ok out.
Proof.
  intro Hw. destruct stag_described as (src & Hs).
  destruct (categorize_ok src l Hs Hw) as [(_ & E)|(_ & mid & out & E & _)]; eauto.
Qed.

Lemma ordinal_not_noted : exists l out x y z,
  forallb wordy l = true /\ categorize_tokens l = Ok out /\
  out = [x; y] ++ z /\ item_of y = M T_PRIVATE_NUMBER_MAI /\
  exists s c, dat x = N_CMAVO s c false.
Proof.
  set (c := fun t => Node (N_CMAVO t 0 false) 1 1 None false None []).
  exists [c T_KOhA; c T_PA; c T_MAI]. eexists. eexists. eexists. eexists.
  split; [reflexivity|]. split; [vm_compute; reflexivity|]. split; [reflexivity|]. split; [reflexivity|].
  eexists. eexists. reflexivity.
Qed.

Lemma number_at_end_crashes : exists l, forallb wordy l = true /\ categorize_tokens l = UB UB_null.
Proof. exists [Node (N_CMAVO T_PA 0 false) 1 1 None false None []]. split; vm_compute; reflexivity. Qed.
